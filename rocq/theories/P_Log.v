(** Properties C27 - C30: reading and scanning log files. *)
From Verif Require Import Base Str L_Str M_Utf8 M_Time M_Timeline M_Log S_Log L_Log.
Local Open Scope string_scope.

(** Example decoders: records of two bytes, Parquet files that end with "!", UTC as the local zone. *)
Definition ex_parse (s : string) : option string := if String.eqb s "" then None else Some s.
Definition ex_datum (sch s : string) : option (string * string) :=
  if (String.length s <? 2)%nat then None else Some (take 2 s, drop 2 s).
Definition ex_to_batch (sch : string) (vs : list string) : outcome (list string) := Ok vs.
Definition ex_parquet (s : string) : option (list (list string)) := if ends_with "!" s then Some [[s]] else None.
Definition ex_local (d : ndt) : option ndt := Some d.
Definition ex_wf := wf_block string string (list string) ex_parse ex_datum (fun _ => Ok tt) ex_to_batch ex_parquet.
Definition ex_read := read_all_blocks string string (list string) ex_parse ex_datum (fun _ => Ok tt) ex_to_batch ex_parquet ex_local.
Definition ex_scan := scan string string (list string) ex_parse ex_datum (fun _ => Ok tt) ex_to_batch ex_parquet ex_local.
Definition ex_file_ok := file_ok string string (list string) ex_parse ex_datum (fun _ => Ok tt) ex_to_batch ex_parquet ex_local.

Definition t1 := "20250101000000000".
Definition t2 := "20250102000000000".
Definition t3 := "20250103000000000".
Definition ex_avro (t : string) : wblock :=
  {| w_version := V1; w_header := [(InstantTime, t); (Schema, "s")]; w_content := CAvro ["ab"; "cd"]; w_footer := [(BlockIdentifier, "x")] |}.
Definition ex_pq (t b : string) : wblock :=
  {| w_version := V2; w_header := [(InstantTime, t)]; w_content := CParquet b; w_footer := [] |}.
Definition ex_rollback (t target : string) : wblock :=
  {| w_version := V1; w_header := [(InstantTime, t); (TargetInstantTime, target); (CommandBlockType, "0")];
     w_content := CCommand; w_footer := [] |}.
Definition ex_blocks : list (wblock * list (list string)) :=
  [(ex_avro t1, [["ab"; "cd"]]); (ex_pq t2 "pq!", [["pq!"]]); (ex_rollback t3 t1, [])].
Definition ex_range : instant_range := up_to t3 "UTC".

Ltac ex_meta := split; [repeat constructor; cbn; intuition discriminate|
  let k := fresh in let v := fresh in let H := fresh in intros k v H; cbn in H; intuition (try contradiction); match goal with E : (_, _) = (_, _) |- _ => injection E as <- <- end; split; reflexivity].
Fact ex_avro_wf : forall t, In t [t1; t2; t3] -> ex_wf (ex_avro t) [["ab"; "cd"]].
Proof.
  intros t Ht. split.
  - discriminate.
  - destruct Ht as [<-|[<-|[<-|[]]]]; ex_meta.
  - split; [ex_meta|]. intros N. now elim N.
  - exists t. now left.
  - reflexivity.
  - intros ds [= <-]. split; [reflexivity|]. repeat constructor.
  - apply (holds_avro _ _ _ _ _ _ _ _ _ _ "s" "s" ["ab"; "cd"] [["ab"; "cd"]]).
    + right. now left.
    + reflexivity.
    + reflexivity.
    + repeat constructor.
    + apply ch_last; [discriminate|]. cbn. repeat apply le_n_S. apply Nat.le_0_l.
    + repeat constructor.
Qed.
Fact ex_pq_wf : forall t b, In t [t1; t2; t3] -> In b ["pq!"; "new!"] -> ex_wf (ex_pq t b) [[b]].
Proof.
  intros t b Ht Hb. split.
  - discriminate.
  - destruct Ht as [<-|[<-|[<-|[]]]]; ex_meta.
  - split; [ex_meta|reflexivity].
  - exists t. now left.
  - destruct Hb as [<-|[<-|[]]]; reflexivity.
  - discriminate.
  - apply holds_parquet. destruct Hb as [<-|[<-|[]]]; reflexivity.
Qed.
Fact ex_rollback_wf : forall t u, In t [t1; t2; t3] -> In u [t1; t2; t3] -> ex_wf (ex_rollback t u) [].
Proof.
  intros t u Ht Hu. split.
  - discriminate.
  - destruct Ht as [<-|[<-|[<-|[]]]]; destruct Hu as [<-|[<-|[<-|[]]]]; ex_meta.
  - split; [ex_meta|reflexivity].
  - exists t. now left.
  - reflexivity.
  - discriminate.
  - apply holds_command.
Qed.
Fact ex_blocks_wf : forall x, In x ex_blocks -> ex_wf (fst x) (snd x).
Proof.
  intros x [<-|[<-|[<-|[]]]].
  - apply ex_avro_wf. now left.
  - apply ex_pq_wf; [right; now left|now left].
  - apply ex_rollback_wf; [right; right; now left|now left].
Qed.
Fact ex_says : forall x, In x ex_blocks -> range_says ex_local ex_range "UTC" (fst x) true.
Proof.
  intros x [<-|[<-|[<-|[]]]].
  - exists t1. split; [now left|reflexivity].
  - exists t2. split; [now left|reflexivity].
  - exists t3. split; [now left|reflexivity].
Qed.

(** C27: reading the bytes of any well-formed blocks returns the blocks in range, in order, with the
    batches they hold. *)
Theorem C27_blocks_read_back : forall avro_schema avro_value batch parse_schema datum check_schema to_batch parquet local_to_utc
    range tz (blocks : list (wblock * list batch)),
  (forall x, In x blocks -> wf_block avro_schema avro_value batch parse_schema datum check_schema to_batch parquet (fst x) (snd x)) ->
  (forall x, In x blocks -> exists b, range_says local_to_utc range tz (fst x) b) ->
  exists kept, selects (fun x => range_says local_to_utc range tz (fst x) true) blocks kept
    /\ read_all_blocks avro_schema avro_value batch parse_schema datum check_schema to_batch parquet local_to_utc range tz (put_log (map fst blocks))
       = Ok (map (fun x => block_of batch (fst x) (snd x) false) kept).
Proof. exact blocks_read_back. Qed.
Print Assumptions C27_blocks_read_back.
Example C27_case : exists kept, selects (fun x => range_says ex_local ex_range "UTC" (fst x) true) ex_blocks kept
  /\ ex_read ex_range "UTC" (put_log (map fst ex_blocks)) = Ok (map (fun x => block_of _ (fst x) (snd x) false) kept).
Proof. apply C27_blocks_read_back; [exact ex_blocks_wf|]. intros x Hx. exists true. now apply ex_says. Qed.
Example C27_case_value : ex_read (up_to t1 "UTC") "UTC" (put_log (map fst ex_blocks)) = Ok [block_of _ (ex_avro t1) [["ab"; "cd"]] false].
Proof. vm_compute. reflexivity. Qed.

(** Reading any bytes terminates: with one step per byte and one more, the loop ends, and more steps
    change nothing (so the result is not an artefact of the bound).  The decoder of a record never
    gives back more bytes than it got. *)
Theorem C27_reading_terminates : forall avro_schema avro_value batch parse_schema datum check_schema to_batch parquet local_to_utc,
  (forall sch s (v : avro_value) r, datum sch s = Some (v, r) -> (String.length r <= String.length s)%nat) ->
  forall range tz s, exists result,
    read_all_blocks avro_schema avro_value batch parse_schema datum check_schema to_batch parquet local_to_utc range tz s = result
    /\ forall fuel, (String.length s < fuel)%nat ->
         read_loop avro_schema avro_value batch parse_schema datum check_schema to_batch parquet local_to_utc range tz fuel s = Some result.
Proof. exact reading_terminates. Qed.
Print Assumptions C27_reading_terminates.
Example C27_terminates_case : forall sch s v r, ex_datum sch s = Some (v, r) -> (String.length r <= String.length s)%nat.
Proof.
  intros sch s v r H. unfold ex_datum in H. destruct (String.length s <? 2)%nat eqn:E; [discriminate|]. injection H as <- <-.
  destruct s as [|a [|b s]]; cbn; auto.
Qed.

(** Blocks of the types the reader does not support make the read fail; they are never skipped. *)
Theorem C27_unsupported_block_rejected : forall avro_schema avro_value batch parse_schema datum check_schema to_batch parquet local_to_utc
    range tz (blocks : list (wblock * list batch)) version type header b n m rest,
  (forall x, In x blocks -> wf_block avro_schema avro_value batch parse_schema datum check_schema to_batch parquet (fst x) (snd x)) ->
  (forall x, In x blocks -> exists b, range_says local_to_utc range tz (fst x) b) ->
  version <> V0 -> In type [Delete; Corrupted; HfileData; CdcData] -> wf_metadata header ->
  range_says local_to_utc range tz {| w_version := version; w_header := header; w_content := CCommand; w_footer := [] |} b ->
  (m < 2 ^ 64)%N ->
  read_all_blocks avro_schema avro_value batch parse_schema datum check_schema to_batch parquet local_to_utc range tz
    (put_log (map fst blocks) ++ block_start version type header n m ++ rest) = Err ELogBlock.
Proof. exact unsupported_rejected. Qed.
Print Assumptions C27_unsupported_block_rejected.
Example C27_unsupported_case : ex_read ex_range "UTC" (put_log (map fst ex_blocks) ++ block_start V1 Delete [(InstantTime, t3)] 50 7 ++ "deletes") = Err ELogBlock.
Proof.
  apply C27_unsupported_block_rejected with (b := true); [exact ex_blocks_wf| | | | | |].
  - intros x Hx. exists true. now apply ex_says.
  - discriminate.
  - now left.
  - ex_meta.
  - exists t3. split; [now left|reflexivity].
  - reflexivity.
Qed.

(** A block of a version without headers, or of an unknown version, is rejected. *)
Theorem C27_unknown_version_rejected : forall avro_schema avro_value batch parse_schema datum check_schema to_batch parquet local_to_utc
    range tz (blocks : list (wblock * list batch)) n version rest,
  (forall x, In x blocks -> wf_block avro_schema avro_value batch parse_schema datum check_schema to_batch parquet (fst x) (snd x)) ->
  (forall x, In x blocks -> exists b, range_says local_to_utc range tz (fst x) b) ->
  (version < 2 ^ 32)%N -> ~ In version [1; 2; 3]%N ->
  read_all_blocks avro_schema avro_value batch parse_schema datum check_schema to_batch parquet local_to_utc range tz
    (put_log (map fst blocks) ++ "#HUDI#" ++ big_endian 8 n ++ big_endian 4 version ++ rest) = Err ELogFormat.
Proof. exact bad_version_rejected. Qed.
Print Assumptions C27_unknown_version_rejected.
Example C27_version_case : ex_read ex_range "UTC" (put_log (map fst ex_blocks) ++ "#HUDI#" ++ big_endian 8 20 ++ big_endian 4 4 ++ "x") = Err ELogFormat.
Proof. apply C27_unknown_version_rejected; [exact ex_blocks_wf| |reflexivity|intros [H|[H|[H|[]]]]; discriminate]. intros x Hx. exists true. now apply ex_says. Qed.

(** An Avro content of an unknown version is rejected. *)
Theorem C27_unknown_records_rejected : forall avro_schema avro_value batch parse_schema datum check_schema to_batch parquet local_to_utc
    range tz (blocks : list (wblock * list batch)) version header b n m text sch record_version rest,
  (forall x, In x blocks -> wf_block avro_schema avro_value batch parse_schema datum check_schema to_batch parquet (fst x) (snd x)) ->
  (forall x, In x blocks -> exists b, range_says local_to_utc range tz (fst x) b) ->
  version <> V0 -> wf_metadata header -> In (Schema, text) header -> parse_schema text = Some sch ->
  range_says local_to_utc range tz {| w_version := version; w_header := header; w_content := CCommand; w_footer := [] |} b ->
  (4 <= m)%N -> (m < 2 ^ 64)%N -> (record_version < 2 ^ 32)%N -> record_version <> 3%N ->
  read_all_blocks avro_schema avro_value batch parse_schema datum check_schema to_batch parquet local_to_utc range tz
    (put_log (map fst blocks) ++ block_start version AvroData header n m ++ big_endian 4 record_version ++ rest) = Err ELogBlock.
Proof. exact bad_records_rejected. Qed.
Print Assumptions C27_unknown_records_rejected.
Example C27_records_case : ex_read ex_range "UTC"
  (put_log (map fst ex_blocks) ++ block_start V1 AvroData [(InstantTime, t3); (Schema, "s")] 50 8 ++ big_endian 4 2 ++ big_endian 4 0) = Err ELogBlock.
Proof.
  apply C27_unknown_records_rejected with (b := true) (text := "s") (sch := "s"); [exact ex_blocks_wf| | | | | | | | | |].
  - intros x Hx. exists true. now apply ex_says.
  - discriminate.
  - ex_meta.
  - right. now left.
  - reflexivity.
  - exists t3. split; [now left|reflexivity].
  - discriminate.
  - reflexivity.
  - reflexivity.
  - discriminate.
Qed.

(** A header or footer in which keys are repeated: the last value of each key counts. *)
Theorem C27_repeated_keys : forall entries rest,
  (N.of_nat (List.length entries) < 2 ^ 32)%N -> (forall k v, In (k, v) entries -> utf8_valid v = true /\ (N.of_nat (String.length v) < 2 ^ 32)%N) ->
  exists m, read_metadata true (put_metadata entries ++ rest) = Ok (m, rest) /\ NoDup (map fst m)
    /\ forall k v, In (k, v) m <-> exists before after, entries = (before ++ (k, v) :: after)%list /\ ~ In k (map fst after).
Proof.
  intros entries rest B W. unfold read_metadata, put_metadata. rewrite app_assoc_s, read_u32_app by exact B. cbn [bind].
  rewrite Nnat.Nat2N.id. destruct (entries_read_last entries [] rest (NoDup_nil _) W) as [m [E [D S]]]. exists m. split; [exact E|].
  split; [exact D|]. intros k v. rewrite S. split; [intros [H|[_ []]]; exact H|now left].
Qed.
Print Assumptions C27_repeated_keys.
Example C27_repeated_case : read_metadata true (put_metadata [(InstantTime, "1"); (Schema, "s"); (InstantTime, "2")] ++ "rest") = Ok ([(InstantTime, "2"); (Schema, "s")], "rest").
Proof. vm_compute. reflexivity. Qed.

(** A header value that is not UTF-8 is rejected. *)
Theorem C27_bad_header_rejected : forall avro_schema avro_value batch parse_schema datum check_schema to_batch parquet local_to_utc
    range tz (blocks : list (wblock * list batch)) version type pre key value post n rest,
  (forall x, In x blocks -> wf_block avro_schema avro_value batch parse_schema datum check_schema to_batch parquet (fst x) (snd x)) ->
  (forall x, In x blocks -> exists b, range_says local_to_utc range tz (fst x) b) ->
  version <> V0 -> wf_metadata pre -> utf8_valid value = false -> (len value < 2 ^ 32)%N ->
  (N.of_nat (List.length (pre ++ (key, value) :: post)%list) < 2 ^ 32)%N ->
  read_all_blocks avro_schema avro_value batch parse_schema datum check_schema to_batch parquet local_to_utc range tz
    (put_log (map fst blocks) ++ "#HUDI#" ++ big_endian 8 n ++ big_endian 4 (version_number version) ++ big_endian 4 (type_number type)
      ++ put_metadata (pre ++ (key, value) :: post)%list ++ rest) = Err EUtf8.
Proof. exact bad_header_rejected. Qed.
Print Assumptions C27_bad_header_rejected.
Example C27_header_case : ex_read ex_range "UTC"
  (put_log (map fst ex_blocks) ++ "#HUDI#" ++ big_endian 8 30 ++ big_endian 4 1 ++ big_endian 4 0
    ++ put_metadata ([(InstantTime, t3)] ++ (Schema, String (ascii_of_N 255) "") :: [])%list ++ "x") = Err EUtf8.
Proof.
  apply (C27_bad_header_rejected _ _ _ _ _ _ _ _ _ ex_range "UTC" ex_blocks V1 Command); [exact ex_blocks_wf| | | | | |].
  - intros x Hx. exists true. now apply ex_says.
  - discriminate.
  - ex_meta.
  - reflexivity.
  - reflexivity.
  - reflexivity.
Qed.

(** C28: for any cut of the bytes, reading fails, or what was read is exactly the blocks wholly
    before the cut, in which case at most five bytes (of the next block's magic) were dropped. *)
Theorem C28_truncated_log_partial : forall avro_schema avro_value batch parse_schema datum check_schema to_batch parquet local_to_utc
    range tz (blocks : list (wblock * list batch)) bytes lost,
  (forall x, In x blocks -> wf_block avro_schema avro_value batch parse_schema datum check_schema to_batch parquet (fst x) (snd x)) ->
  (forall x, In x blocks -> cut_detected avro_schema avro_value batch parse_schema datum parquet (fst x)) ->
  (forall x, In x blocks -> exists b, range_says local_to_utc range tz (fst x) b) ->
  bytes ++ lost = put_log (map fst blocks) ->
  (exists e, read_all_blocks avro_schema avro_value batch parse_schema datum check_schema to_batch parquet local_to_utc range tz bytes = Err e)
  \/ exists before after torn kept,
       blocks = (before ++ after)%list /\ bytes = put_log (map fst before) ++ torn /\ (String.length torn < 6)%nat
       /\ selects (fun x => range_says local_to_utc range tz (fst x) true) before kept
       /\ read_all_blocks avro_schema avro_value batch parse_schema datum check_schema to_batch parquet local_to_utc range tz bytes
          = Ok (map (fun x => block_of batch (fst x) (snd x) false) kept).
Proof. exact truncated_log. Qed.
Print Assumptions C28_truncated_log_partial.
Fact ex_cut : forall x, In x ex_blocks -> cut_detected string string (list string) ex_parse ex_datum ex_parquet (fst x).
Proof.
  intros x [<-|[<-|[<-|[]]]]; cbn.
  - intros text sch d p _ _ Hd [r [N E]]. destruct Hd as [<-|[<-|[]]];
      (destruct p as [|a [|b [|c p]]]; [reflexivity|reflexivity|cbn in E; injection E as _ _ E; subst; now elim N|discriminate]).
  - intros _ p [r [N E]]. destruct p as [|a [|b [|c [|d p]]]]; cbn in E.
    + reflexivity.
    + injection E as <- _. reflexivity.
    + injection E as <- <- _. reflexivity.
    + injection E as _ _ _ E. subst. now elim N.
    + discriminate.
  - exact I.
Qed.
(** The example log cut at any byte; inside its last block: an error; inside the last magic: two blocks. *)
Example C28_case : forall n,
  (exists e, ex_read ex_range "UTC" (take n (put_log (map fst ex_blocks))) = Err e)
  \/ exists before after torn kept, ex_blocks = (before ++ after)%list /\ take n (put_log (map fst ex_blocks)) = put_log (map fst before) ++ torn
       /\ (String.length torn < 6)%nat /\ selects (fun x => range_says ex_local ex_range "UTC" (fst x) true) before kept
       /\ ex_read ex_range "UTC" (take n (put_log (map fst ex_blocks))) = Ok (map (fun x => block_of _ (fst x) (snd x) false) kept).
Proof.
  intros n. apply C28_truncated_log_partial with (lost := drop n (put_log (map fst ex_blocks))); [exact ex_blocks_wf|exact ex_cut| |apply take_drop].
  intros x Hx. exists true. now apply ex_says.
Qed.
Example C28_case_inside : ex_read ex_range "UTC" (take 230 (put_log (map fst ex_blocks))) = Err EIo.
Proof. vm_compute. reflexivity. Qed.
Example C28_case_torn : ex_read ex_range "UTC" (take (String.length (put_log (map fst (firstn 2 ex_blocks))) + 5) (put_log (map fst ex_blocks)))
  = Ok (map (fun x => block_of _ (fst x) (snd x) false) (firstn 2 ex_blocks)).
Proof. vm_compute. reflexivity. Qed.

(** Bytes after the last block that are not a block (at least six, without the magic) are an error. *)
Theorem C28_garbage_rejected : forall avro_schema avro_value batch parse_schema datum check_schema to_batch parquet local_to_utc
    range tz (blocks : list (wblock * list batch)) garbage,
  (forall x, In x blocks -> wf_block avro_schema avro_value batch parse_schema datum check_schema to_batch parquet (fst x) (snd x)) ->
  (forall x, In x blocks -> exists b, range_says local_to_utc range tz (fst x) b) ->
  (6 <= String.length garbage)%nat -> starts_with "#HUDI#" garbage = false ->
  read_all_blocks avro_schema avro_value batch parse_schema datum check_schema to_batch parquet local_to_utc range tz
    (put_log (map fst blocks) ++ garbage) = Err ELogFormat.
Proof. exact garbage_rejected. Qed.
Print Assumptions C28_garbage_rejected.
Example C28_garbage_case : ex_read ex_range "UTC" (put_log (map fst ex_blocks) ++ "#HUDI?junk") = Err ELogFormat.
Proof.
  apply C28_garbage_rejected; [exact ex_blocks_wf| |cbn; repeat constructor|reflexivity]. intros x Hx. exists true. now apply ex_says.
Qed.

(** C29: scanning log files returns the batches of exactly the surviving blocks (in range, and not of
    an instant that an in-range rollback block of any of the files targets), in file and block order. *)
Theorem C29_scan_exact : forall avro_schema avro_value batch parse_schema datum check_schema to_batch parquet local_to_utc
    fetch range tz (files : list (string * list (wblock * list batch))),
  (forall f, In f files -> file_ok avro_schema avro_value batch parse_schema datum check_schema to_batch parquet local_to_utc fetch range tz f) ->
  exists out, selects (surviving batch local_to_utc range tz (List.concat (map snd files))) (List.concat (map snd files)) out
    /\ scan avro_schema avro_value batch parse_schema datum check_schema to_batch parquet local_to_utc fetch range tz (map fst files)
       = Ok (map snd out).
Proof. exact scan_ok. Qed.
Print Assumptions C29_scan_exact.
Definition ex_fetch (bl : list (wblock * list (list string))) (p : string) : outcome string := Ok (put_log (map fst bl)).
Fact ex_file : ex_file_ok (ex_fetch ex_blocks) ex_range "UTC" ("f.log", ex_blocks).
Proof.
  split; [reflexivity|]. intros x Hx. split; [now apply ex_blocks_wf|]. split; [|exists true; now apply ex_says].
  destruct Hx as [<-|[<-|[<-|[]]]]; intros v Hc; try discriminate. intros _ _. exists t1. right. now left.
Qed.
Example C29_case : exists out, selects (surviving _ ex_local ex_range "UTC" ex_blocks) ex_blocks out
  /\ ex_scan (ex_fetch ex_blocks) ex_range "UTC" ["f.log"] = Ok (map snd out).
Proof. apply (C29_scan_exact _ _ _ _ _ _ _ _ _ _ _ _ [("f.log", ex_blocks)]). intros f [<-|[]]. exact ex_file. Qed.
Example C29_case_value : ex_scan (ex_fetch ex_blocks) ex_range "UTC" ["f.log"] = Ok [[["pq!"]]; []].
Proof. vm_compute. reflexivity. Qed.
(** A rollback outside the range has no effect: reading as of a time before the rollback returns the
    data of the rolled-back instant. *)
Theorem C29_later_rollback_ignored : exists (files : list (string * list (wblock * list (list string)))) target fetch,
  (forall f, In f files -> ex_file_ok fetch (up_to t2 "UTC") "UTC" f)
  /\ (exists f x, In f files /\ In x (snd f) /\ rolls_back (fst x) target)
  /\ (exists f x, In f files /\ In x (snd f) /\ at_instant (fst x) target /\ snd x = [["ab"; "cd"]])
  /\ ex_scan fetch (up_to t2 "UTC") "UTC" (map fst files) = Ok [[["ab"; "cd"]]; [["pq!"]]].
Proof.
  exists [("f.log", ex_blocks)], t1, (ex_fetch ex_blocks). split; [|split; [|split]].
  - intros f [<-|[]]. split; [reflexivity|]. intros x Hx. split; [now apply ex_blocks_wf|]. split; [apply ex_file; assumption|].
    destruct Hx as [<-|[<-|[<-|[]]]].
    + exists true, t1. split; [now left|reflexivity].
    + exists true, t2. split; [now left|reflexivity].
    + exists false, t3. split; [now left|reflexivity].
  - exists ("f.log", ex_blocks), (ex_rollback t3 t1, []). split; [now left|]. split; [right; right; now left|].
    split; [reflexivity|]. split; [right; now left|]. exists "0". split; [right; right; now left|reflexivity].
  - exists ("f.log", ex_blocks), (ex_avro t1, [["ab"; "cd"]]). split; [now left|]. split; [now left|]. split; [now left|reflexivity].
  - vm_compute. reflexivity.
Qed.
Print Assumptions C29_later_rollback_ignored.

(** C30 is false: a block appended after the rollback, with the instant the rollback targets, is not
    returned. *)
Definition ex_again : list (wblock * list (list string)) :=
  [(ex_pq t1 "pq!", [["pq!"]]); (ex_rollback t2 t1, []); (ex_pq t1 "new!", [["new!"]])].
Theorem C30_later_block_kept_refuted : exists pre rollback post target fetch range,
  ex_file_ok fetch range "UTC" ("f.log", (pre ++ rollback :: post)%list)
  /\ rolls_back (fst rollback) target
  /\ (exists x, In x post /\ at_instant (fst x) target /\ range_says ex_local range "UTC" (fst x) true /\ snd x = [["new!"]])
  /\ exists out, ex_scan fetch range "UTC" ["f.log"] = Ok out /\ ~ In [["new!"]] out.
Proof.
  exists [(ex_pq t1 "pq!", [["pq!"]])], (ex_rollback t2 t1, []), [(ex_pq t1 "new!", [["new!"]])], t1, (ex_fetch ex_again), ex_range.
  split; [|split; [|split]].
  - split; [reflexivity|]. intros x [<-|[<-|[<-|[]]]].
    + split; [apply ex_pq_wf; now left|]. split; [intros v Hc; discriminate|]. exists true, t1. split; [now left|reflexivity].
    + split; [apply ex_rollback_wf; [right; now left|now left]|]. split; [intros v _ _ _; exists t1; right; now left|]. exists true, t2. split; [now left|reflexivity].
    + split; [apply ex_pq_wf; [now left|right; now left]|]. split; [intros v Hc; discriminate|]. exists true, t1. split; [now left|reflexivity].
  - split; [reflexivity|]. split; [right; now left|]. exists "0". split; [right; right; now left|reflexivity].
  - exists (ex_pq t1 "new!", [["new!"]]). split; [now left|]. split; [now left|]. split; [|reflexivity]. exists t1. split; [now left|reflexivity].
  - exists [[]]. split; [vm_compute; reflexivity|]. intros [H|[]]. discriminate.
Qed.
Print Assumptions C30_later_block_kept_refuted.
(** The first half of C30: the data blocks of the target instant before the rollback block might as
    well not have been written.  Missing: the blocks of that instant after it are removed too. *)
Theorem C30_earlier_blocks_removed_partial : forall avro_schema avro_value batch parse_schema datum check_schema to_batch parquet local_to_utc
    fetch fetch' range tz path (pre pre' : list (wblock * list batch)) rollback post target,
  file_ok avro_schema avro_value batch parse_schema datum check_schema to_batch parquet local_to_utc fetch range tz (path, (pre ++ rollback :: post)%list) ->
  file_ok avro_schema avro_value batch parse_schema datum check_schema to_batch parquet local_to_utc fetch' range tz (path, (pre' ++ rollback :: post)%list) ->
  range_says local_to_utc range tz (fst rollback) true -> rolls_back (fst rollback) target ->
  selects (fun x => ~ (at_instant (fst x) target /\ w_content (fst x) <> CCommand)) pre pre' ->
  scan avro_schema avro_value batch parse_schema datum check_schema to_batch parquet local_to_utc fetch range tz [path]
  = scan avro_schema avro_value batch parse_schema datum check_schema to_batch parquet local_to_utc fetch' range tz [path].
Proof. exact earlier_removed. Qed.
Print Assumptions C30_earlier_blocks_removed_partial.
Example C30_case : ex_scan (ex_fetch ex_blocks) ex_range "UTC" ["f.log"]
  = ex_scan (ex_fetch (tl ex_blocks)) ex_range "UTC" ["f.log"].
Proof.
  apply (C30_earlier_blocks_removed_partial _ _ _ _ _ _ _ _ _ _ _ _ _ _ [(ex_avro t1, [["ab"; "cd"]]); (ex_pq t2 "pq!", [["pq!"]])] [(ex_pq t2 "pq!", [["pq!"]])]
    (ex_rollback t3 t1, []) [] t1).
  - exact ex_file.
  - destruct ex_file as [_ H]. split; [reflexivity|]. intros x Hx. apply H. now right.
  - apply (ex_says (ex_rollback t3 t1, [])). right. right. now left.
  - split; [reflexivity|]. split; [right; now left|]. exists "0". split; [right; right; now left|reflexivity].
  - apply sel_drop; [|apply sel_keep; [|constructor]].
    + intros N. apply N. split; [now left|discriminate].
    + intros [[E|[]] _]. discriminate.
Qed.
