(** Specification of the log format: how a writer lays out blocks, and what they mean. *)
From Verif Require Import Base Str M_Utf8 M_Time M_Timeline M_Log.
Local Open Scope string_scope.

(** [n] in big-endian order on [k] bytes. *)
Fixpoint big_endian (k : nat) (n : N) : string :=
  match k with
  | O => ""
  | S k' => big_endian k' (n / 256) ++ String (ascii_of_N (n mod 256)) ""
  end.
Definition glue (l : list string) : string := fold_right append "" l.
Definition len (s : string) : N := N.of_nat (String.length s).

(** Numbers of the enumerations in the format. *)
Definition version_number (v : log_version) : N := match v with V0 => 0 | V1 => 1 | V2 => 2 | V3 => 3 end.
Definition type_number (t : block_type) : N :=
  match t with Command => 0 | Delete => 1 | Corrupted => 2 | AvroData => 3 | HfileData => 4 | ParquetData => 5 | CdcData => 6 end.
Definition key_number (k : meta_key) : N :=
  match k with
  | InstantTime => 0 | TargetInstantTime => 1 | Schema => 2 | CommandBlockType => 3
  | CompactedBlockTimes => 4 | RecordPositions => 5 | BlockIdentifier => 6
  end.

(** What a writer puts in a block. *)
Inductive wcontent :=
| CCommand                          (* no content *)
| CParquet (bytes : string)         (* a Parquet file *)
| CAvro (records : list string).    (* serialized records *)
Record wblock := {
  w_version : log_version;
  w_header : metadata;
  w_content : wcontent;
  w_footer : metadata
}.
Definition w_type (w : wblock) : block_type :=
  match w_content w with CCommand => Command | CParquet _ => ParquetData | CAvro _ => AvroData end.

(** Layout of a block. *)
Definition put_entry (e : meta_key * string) : string :=
  big_endian 4 (key_number (fst e)) ++ big_endian 4 (len (snd e)) ++ snd e.
Definition put_metadata (m : metadata) : string :=
  big_endian 4 (N.of_nat (List.length m)) ++ glue (map put_entry m).
Definition put_record (d : string) : string := big_endian 4 (len d) ++ d.
Definition put_content (c : wcontent) : string :=
  match c with
  | CCommand => ""
  | CParquet b => b
  | CAvro ds => big_endian 4 3 ++ big_endian 4 (N.of_nat (List.length ds)) ++ glue (map put_record ds)
  end.
Definition put_tail (w : wblock) : string :=
  big_endian 4 (version_number (w_version w)) ++ big_endian 4 (type_number (w_type w))
  ++ put_metadata (w_header w)
  ++ big_endian 8 (len (put_content (w_content w))) ++ put_content (w_content w)
  ++ match w_version w with V1 => put_metadata (w_footer w) | _ => "" end.
Definition put_block (w : wblock) : string :=
  "#HUDI#" ++ big_endian 8 (len (put_tail w) + (match w_version w with V1 => 8 | _ => 0 end)) ++ put_tail w
  ++ match w_version w with V1 => big_endian 8 (len (put_tail w) + 14) | _ => "" end.
Definition put_log (ws : list wblock) : string := glue (map put_block ws).

(** The first bytes of a block of any type, up to its content of [m] bytes. *)
Definition block_start (v : log_version) (ty : block_type) (h : metadata) (n m : N) : string :=
  "#HUDI#" ++ big_endian 8 n ++ big_endian 4 (version_number v) ++ big_endian 4 (type_number ty) ++ put_metadata h ++ big_endian 8 m.

(** A list cut into consecutive pieces of [n], the last one possibly shorter. *)
Inductive in_chunks {A} (n : nat) : list A -> list (list A) -> Prop :=
| ch_nil : in_chunks n [] []
| ch_last : forall l, l <> [] -> (List.length l <= n)%nat -> in_chunks n l [l]
| ch_more : forall l r cs, List.length l = n -> r <> [] -> in_chunks n r cs -> in_chunks n (l ++ r)%list (l :: cs).

Definition strict_prefix (p s : string) : Prop := exists r, r <> "" /\ s = p ++ r.

Section Meaning.
Variable avro_schema avro_value batch : Type.
Variable parse_schema : string -> option avro_schema.
Variable datum : avro_schema -> string -> option (avro_value * string).
Variable check_schema : avro_schema -> outcome unit.
Variable to_batch : avro_schema -> list avro_value -> outcome batch.
Variable parquet : string -> option (list batch).

(** The record batches a content stands for. *)
Inductive holds (header : metadata) : wcontent -> list batch -> Prop :=
| holds_command : holds header CCommand []
| holds_parquet : forall b bs, parquet b = Some bs -> holds header (CParquet b) bs
| holds_avro : forall ds text sch vs cs bs,
    In (Schema, text) header -> parse_schema text = Some sch -> check_schema sch = Ok tt ->
    Forall2 (fun d v => datum sch d = Some (v, "")) ds vs ->
    in_chunks 1024 vs cs -> Forall2 (fun c b => to_batch sch c = Ok b) cs bs ->
    holds header (CAvro ds) bs.

Definition wf_metadata (m : metadata) : Prop :=
  NoDup (map fst m) /\ forall k v, In (k, v) m -> utf8_valid v = true /\ (len v < 2 ^ 32)%N.

(** A block that a writer may write: a version with headers, an instant time, values that fit their
    length fields, a content that can be decoded. *)
Record wf_block (w : wblock) (bs : list batch) : Prop := {
  wf_version : w_version w <> V0;
  wf_header : wf_metadata (w_header w);
  wf_footer : wf_metadata (w_footer w) /\ (w_version w <> V1 -> w_footer w = []);
  wf_instant : exists t, In (InstantTime, t) (w_header w);
  wf_length : (len (put_content (w_content w)) < 2 ^ 64)%N;
  wf_records : forall ds, w_content w = CAvro ds -> (N.of_nat (List.length ds) < 2 ^ 32)%N /\ Forall (fun d => (len d < 2 ^ 32)%N) ds;
  wf_holds : holds (w_header w) (w_content w) bs
}.

(** What a decoder of self-delimiting data does with cut input: the serialized records and the
    Parquet files of the block cannot be decoded from a strict prefix.  In version 1 nothing is
    needed for Parquet, since a footer follows. *)
Definition cut_detected (w : wblock) : Prop :=
  match w_content w with
  | CCommand => True
  | CParquet b => w_version w <> V1 -> forall p, strict_prefix p b -> parquet p = None
  | CAvro ds => forall text sch d p, In (Schema, text) (w_header w) -> parse_schema text = Some sch -> In d ds ->
      strict_prefix p d -> datum sch p = None
  end.

(** A weaker condition, for version 1 with its footer: from a strict prefix of a record the decoder takes everything
    or fails.  Avro's decoder is like this (C77): a cut record may become one with nulls. *)
Definition cut_taken (w : wblock) : Prop :=
  w_version w = V1 /\ forall ds text sch d p, w_content w = CAvro ds -> In (Schema, text) (w_header w) -> parse_schema text = Some sch -> In d ds ->
    strict_prefix p d -> datum sch p = None \/ exists v, datum sch p = Some (v, "").

(** The block as the reader returns it. *)
Definition block_of (w : wblock) (bs : list batch) (skipped : bool) : log_block batch :=
  {| lb_version := w_version w; lb_type := w_type w; lb_header := w_header w; lb_batches := bs;
     lb_footer := w_footer w; lb_skipped := skipped |}.
End Meaning.

Section Scan.
Variable local_to_utc : ndt -> option ndt.

(** The instant of a block, and whether it is in the range ([C08] says what that means). *)
Definition at_instant (w : wblock) (t : string) : Prop := In (InstantTime, t) (w_header w).
Definition range_says (range : instant_range) (tz : string) (w : wblock) (b : bool) : Prop :=
  exists t, at_instant w t /\ is_in_range local_to_utc range t tz = Ok b.

(** A rollback block and its target. *)
Definition rolls_back (w : wblock) (target : string) : Prop :=
  w_content w = CCommand /\ In (TargetInstantTime, target) (w_header w)
  /\ exists v, In (CommandBlockType, v) (w_header w) /\ parse_u32 v = Some 0%Z.
(** Rollback blocks carry a target. *)
Definition target_given (w : wblock) : Prop :=
  forall v, w_content w = CCommand -> In (CommandBlockType, v) (w_header w) -> parse_u32 v = Some 0%Z ->
    exists target, In (TargetInstantTime, target) (w_header w).
End Scan.

(** The elements of a list that satisfy [P], in order. *)
Inductive selects {A} (P : A -> Prop) : list A -> list A -> Prop :=
| sel_nil : selects P [] []
| sel_keep : forall x l r, P x -> selects P l r -> selects P (x :: l) (x :: r)
| sel_drop : forall x l r, ~ P x -> selects P l r -> selects P (x :: l) r.

Section Files.
Variable avro_schema avro_value batch : Type.
Variable parse_schema : string -> option avro_schema.
Variable datum : avro_schema -> string -> option (avro_value * string).
Variable check_schema : avro_schema -> outcome unit.
Variable to_batch : avro_schema -> list avro_value -> outcome batch.
Variable parquet : string -> option (list batch).
Variable local_to_utc : ndt -> option ndt.

(** A log file with its blocks and their batches: its bytes in storage are the blocks, which are well
    formed and whose instants can be compared with the range. *)
Definition file_ok (fetch : string -> outcome string) (range : instant_range) (tz : string)
    (f : string * list (wblock * list batch)) : Prop :=
  fetch (fst f) = Ok (put_log (map fst (snd f)))
  /\ forall x, In x (snd f) ->
       wf_block avro_schema avro_value batch parse_schema datum check_schema to_batch parquet (fst x) (snd x)
       /\ target_given (fst x) /\ exists b, range_says local_to_utc range tz (fst x) b.

(** In range, and not at the target of a rollback block in range among [all]. *)
Definition surviving (range : instant_range) (tz : string) (all : list (wblock * list batch)) (x : wblock * list batch) : Prop :=
  range_says local_to_utc range tz (fst x) true
  /\ ~ exists y t, In y all /\ range_says local_to_utc range tz (fst y) true /\ rolls_back (fst y) t /\ at_instant (fst x) t.
End Files.
