(** C77: log records are read from Avro's binary form.  C28: what a cut log file of Avro records reads as. *)
From Coq Require Import Sorted.
From Verif Require Import Base Str M_Time M_Timeline M_Instant M_FileGroup M_Listing M_Expr M_Log M_Config M_Reader M_Table M_Avro M_Values M_Datum
  S_Time S_Timeline S_FileGroup S_Listing S_Expr S_Log S_Reader S_Config S_Table S_Avro S_History S_Values S_Datum
  L_Str L_Reader L_Tree L_ArrowSchema L_Records L_Log L_Cut L_Values L_Datum L_Typed L_Stored E_Avro E_History E_Values E_Datum P_Values.
Local Open Scope string_scope.

(** The bytes of a value are read as the value, and what follows them is left for the next one. *)
Theorem C77_read : forall s v d rest, encodes s v d -> decode s (d ++ rest) = Some (v, rest).
Proof. exact encodes_read. Qed.
Print Assumptions C77_read.
Example C77_read_case : encodes dx_schema dx_value dx_bytes /\ decode dx_schema (dx_bytes ++ "rest") = Some (dx_value, "rest").
Proof. split; [exact dx_encodes|vm_compute; reflexivity]. Qed.

(** Every value of a schema that is not too long has bytes, values that have bytes are values of the schema, and
    no bytes stand for two values. *)
Theorem C77_form : forall s,
  (forall v, conforms s v -> storable s v -> exists d, encodes s v d)
  /\ (forall v d, encodes s v d -> conforms s v)
  /\ (forall v v' d, encodes s v d -> encodes s v' d -> v = v').
Proof.
  intros s. split; [exact (encodes_exists s)|]. split; [exact (encodes_conforms s)|]. intros v v' d H H'.
  apply encodes_whole in H. apply encodes_whole in H'. congruence.
Qed.
Print Assumptions C77_form.
Example C77_form_case : conforms dx_schema dx_value /\ encodes dx_schema dx_value dx_bytes.
Proof. split; [exact (encodes_conforms _ _ _ dx_encodes)|exact dx_encodes]. Qed.

(** Reading takes bytes from the front of its input; if it does not take all of them, what follows has no effect.
    So blocks of records can be read in one pass, which ends (C27). *)
Theorem C77_front : forall s b v rest, decode s b = Some (v, rest) ->
  (exists taken, b = taken ++ rest) /\ (rest <> "" -> forall more, decode s (b ++ more) = Some (v, rest ++ more)).
Proof. exact decode_steady. Qed.
Print Assumptions C77_front.
Example C77_front_case : decode dx_schema (dx_bytes ++ "rest") = Some (dx_value, "rest") /\ decode ScString (bytes_of [8%N] ++ "hu") = Some (AvNull, "").
Proof. split; vm_compute; reflexivity. Qed.

(** Whatever the bytes, a record that ends before the end of its input has the shape of the schema, and numbers in the
    ranges of their types.  Only a record that ends with the input may have nulls in places where the schema has none. *)
Theorem C77_typed : forall s b v rest, decode s b = Some (v, rest) -> rest <> "" -> conforms s v.
Proof. exact decode_typed. Qed.
Print Assumptions C77_typed.
Example C77_typed_case : decode (ScUnion [ScNull; ScInt]) (bytes_of [2; 15; 7]%N) = Some (AvUnion 1 (AvInt (-8)), bytes_of [7%N]) /\ decode (ScUnion [ScNull; ScInt]) (bytes_of [4; 15; 7]%N) = None
  /\ decode ScInt (bytes_of [128; 128; 128; 128; 16; 0]%N) = None.
Proof. repeat split; vm_compute; reflexivity. Qed.

(** Lengths are checked before anything is read: bytes, texts and decimals of a negative length, or of more than 512 MB,
    and blocks of more items than that, are refused whatever follows. *)
Theorem C77_lengths : forall z d rest, number z d ->
  ((z < 0 \/ 536870912 < z)%Z -> decode ScBytes (d ++ rest) = None /\ decode ScString (d ++ rest) = None
     /\ forall p q, decode (ScDecimal p q None) (d ++ rest) = None)
  /\ ((z < -536870912 \/ 536870912 < z)%Z -> forall s, decode (ScArray s) (d ++ rest) = None /\ decode (ScMap s) (d ++ rest) = None).
Proof.
  intros z d rest N. pose proof (number_long z d rest N) as L. split.
  - intros B. assert (D : decode_len (d ++ rest) = None).
    { unfold decode_len, safe_len, MAX_ALLOCATION. rewrite L. destruct (Z.leb_spec 0 z); [|reflexivity].
      destruct (Z.leb_spec z (Z.of_N 536870912)); [lia|reflexivity]. }
    cbn [decode]. unfold bytes, text. rewrite D. repeat split.
  - intros B s. assert (D : decode_seq_len (d ++ rest) = None).
    { unfold decode_seq_len, safe_len, MAX_ALLOCATION. rewrite L. destruct (Z.ltb_spec z 0).
      - destruct (long rest) as [[k r]|]; [|reflexivity]. destruct (Z.leb_spec 0 (- z)); [|reflexivity].
        destruct (Z.leb_spec (- z) (Z.of_N 536870912)); [lia|reflexivity].
      - destruct (Z.leb_spec 0 z); [|reflexivity]. destruct (Z.leb_spec z (Z.of_N 536870912)); [lia|reflexivity]. }
    cbn [decode decode_blocks]. rewrite D. split; reflexivity.
Qed.
Print Assumptions C77_lengths.
Example C77_lengths_case : number (-2) (bytes_of [3%N]) /\ decode ScBytes (bytes_of [3; 65; 66]%N) = None /\ decode (ScArray ScNull) (bytes_of [3; 0; 0]%N) = Some (AvArray [AvNull; AvNull], "").
Proof.
  split; [|split; vm_compute; reflexivity]. split; [split; reflexivity || (vm_compute; congruence)|]. apply (gr_last 3). lia.
Qed.

(** A map that repeats keys is read with the last value of each: every key of the entries is there, once. *)
Theorem C77_map_keys : forall s l d rest, entry_blocks s l d -> exists m, decode (ScMap s) (d ++ rest) = Some (AvMap m, rest)
  /\ NoDup (map fst m) /\ forall k v, In (k, v) m <-> exists before after, l = (before ++ (k, v) :: after)%list /\ ~ In k (map fst after).
Proof.
  intros s l d rest H. exists (put_all l []). split; [|split].
  - cbn [decode]. rewrite (entry_blocks_put s l d H); [reflexivity|]. rewrite length_app_s. lia.
  - apply put_all_nodup. constructor.
  - intros k v. rewrite (put_all_holds l [] k v (NoDup_nil _)). split; [intros [X|[_ []]]; exact X|now left].
Qed.
Print Assumptions C77_map_keys.
(** The map of two entries with the key "a": 1 and 2.  It is read as 2. *)
Example C77_map_keys_case : let d := byte 4 ++ byte 2 ++ "a" ++ byte 2 ++ byte 2 ++ "a" ++ byte 4 ++ byte 0 in
  entry_blocks ScInt [("a", AvInt 1); ("a", AvInt 2)] d /\ decode (ScMap ScInt) d = Some (AvMap [("a", AvInt 2)], "").
Proof.
  cbn zeta. split; [|vm_compute; reflexivity].
  assert (N : forall z b, int_range z -> zigzag z = b -> (b < 128)%N -> number z (byte b)).
  { intros z b [L H] <- B. split; [unfold long_range; lia|]. now apply gr_last. }
  assert (S : forall n b, (Z.of_nat n <= 100)%Z -> zigzag (Z.of_nat n) = b -> (b < 128)%N -> size n (byte b)).
  { intros n b L E B. split; [lia|]. apply N; [unfold int_range; lia|exact E|exact B]. }
  change (byte 4 ++ byte 2 ++ "a" ++ byte 2 ++ byte 2 ++ "a" ++ byte 4 ++ byte 0) with (byte 4 ++ ((byte 2 ++ "a") ++ byte 2 ++ (byte 2 ++ "a") ++ byte 4 ++ "") ++ byte 0).
  apply (eb_block ScInt [("a", AvInt 1); ("a", AvInt 2)] _ _ [] _); [discriminate|apply S; [cbn; lia|reflexivity|reflexivity]| |apply eb_end].
  apply ey_cons; [apply (en_string "a"); [reflexivity|apply S; [cbn; lia|reflexivity|reflexivity]]|apply en_int; [|apply N; [|reflexivity|reflexivity]]; unfold int_range; lia|].
  apply ey_cons; [apply (en_string "a"); [reflexivity|apply S; [cbn; lia|reflexivity|reflexivity]]|apply en_int; [|apply N; [|reflexivity|reflexivity]]; unfold int_range; lia|apply ey_nil].
Qed.

(** A file slice whose log records are in this form is read as the latest version of each key among the rows of
    its base file and the records of the surviving blocks of its log files (C29, C76). *)
Theorem C77_slice : forall code rank float_cast sort iter read_parquet parse_schema parquet local_to_utc fetch m slice tz files dfs base p s k,
  S_Reader.sorts sort -> visits iter ->
  fs_logs slice <> [] -> oget "hoodie.read.use.read_optimized.mode" m <> Some "true" -> timeline_timezone m = Ok tz ->
  map (log_relative_path slice) (fs_logs slice) = map fst files ->
  (forall f, In f files -> log_written parse_schema encodes local_to_utc fetch (read_range tz m) tz dfs f) ->
  read_base_file read_parquet m (base_relative_path slice) = Ok base -> rb_fields base = map (as_field code) dfs ->
  merges_latest m -> merge_columns m (rb_fields base) p s k -> wf_batch (rb_fields base) base ->
  exists kept out,
    selects (surviving value local_to_utc (read_range tz m) tz (List.concat (map snd files))) (List.concat (map snd files)) kept
    /\ read_file_slice sort iter read_parquet avro value parse_schema decode check_schema (to_batch code rank float_cast) parquet local_to_utc fetch m slice = Ok out
    /\ rb_fields out = rb_fields base
    /\ latest_rows k p s (rb_rows base ++ map (row_of code rank dfs) (List.concat (map snd kept)))%list (rb_rows out).
Proof.
  intros code rank float_cast sort iter read_parquet parse_schema parquet local_to_utc fetch m slice tz files dfs base p s k So Vi Nl Ro Tz Pa Fi.
  apply (C76_slice code rank float_cast sort iter read_parquet parse_schema decode parquet local_to_utc fetch m slice tz files dfs base p s k So Vi Nl Ro Tz Pa).
  intros f I. now apply stored_file, Fi.
Qed.
Print Assumptions C77_slice.
Example C77_slice_case : log_written vx_parse encodes hx_local (st_bytes _ vx_store) (read_range "utc" vx_options) "utc" vx_dfs (fm_name hx_log1, vx_contents (fm_name hx_log1))
  /\ (exists out, read_file_slice (@isort _) (fun m => m) (st_parquet _ vx_store) avro value vx_parse decode check_schema (to_batch vx_code vx_rank vx_cast) (fun _ => None) hx_local (st_bytes _ vx_store) vx_options vx_slice = Ok out
        /\ rb_rows out = [hx_a2; hx_b1]).
Proof. split; [exact dx_log_ok|]. eexists. split; vm_compute; reflexivity. Qed.

(** A snapshot read as of [t] of a table whose log files hold records in this form returns for every file slice
    the newest version of every key among those committed by then (C52, C76). *)
Theorem C77_snapshot : forall code rank float_cast dtype' value' cast cmp parse_schema parquet local_to_utc
    (st : store dtype') tb dfs p s k, merging_table tb (map (as_field code) dfs) p s k ->
  forall root, serves_dirs root (st_dirs _ st) -> wf_tree root -> StronglySorted instant_le (t_commits tb) ->
  forall c c' t filters batches format, view_after dtype' value' cast cmp local_to_utc st tb c -> base_format (t_configs tb) = Ok format -> timestamp t ->
  read_snapshot_as_of dtype' value' cast cmp avro value parse_schema decode check_schema (to_batch code rank float_cast) parquet local_to_utc st tb t filters c c' (Ok batches) ->
  exists ss, get_file_slices_as_of dtype' value' cast cmp local_to_utc st tb t filters c c' (Ok ss)
    /\ Forall2 (fun slice batch => forall now g listed contents, history k p s now g -> clean_at g t ->
         st_files _ st (fs_partition slice) = Ok listed ->
         written_out parse_schema encodes code rank (st_parquet _ st) (st_bytes _ st) format (fs_partition slice) (bf_file_id (fs_base slice)) dfs listed contents g ->
         rb_fields batch = map (as_field code) dfs /\ current_at k p s g t (rb_rows batch)) ss batches.
Proof.
  intros code rank float_cast dtype' value' cast cmp parse_schema parquet local_to_utc st tb dfs p s k Mt root Sd Wt So c c' t filters batches format Va Bf Ts Rd.
  destruct (C76_snapshot code rank float_cast dtype' value' cast cmp parse_schema decode parquet local_to_utc st tb dfs p s k Mt root Sd Wt So c c' t filters batches format Va Bf Ts Rd) as [ss [G F]].
  exists ss. split; [exact G|]. clear G Rd. induction F as [|slice batch ss bs H F IH]; constructor; [|exact IH]. intros now g listed contents Hi Cl Li Wo.
  apply (H now g listed contents Hi Cl Li). now apply stored_out.
Qed.
Print Assumptions C77_snapshot.
Example C77_snapshot_case : merging_table hx_table (map (as_field vx_code) vx_dfs) 3 1 2 /\ history 2 3 1 hx_t6 hx_group /\ clean_at hx_group hx_t4
  /\ written_out vx_parse encodes vx_code vx_rank (st_parquet _ vx_store) (st_bytes _ vx_store) "parquet" "" "f" vx_dfs hx_listed vx_contents hx_group
  /\ dx_reads hx_t4 [hx_a2; hx_b1] /\ dx_reads hx_t6 [hx_b6; hx_a2].
Proof.
  split; [exact hx_merging|]. split; [exact hx_history|]. split; [apply hx_clean; cbn; tauto|]. split; [exact dx_written_out|]. split; [exact dx_read4|exact dx_read6].
Qed.

(** ** Cut log files (C28) *)
(** The decoder reads the end of the input as nulls, so a cut record may be another record for it.  In format
    version 1 a footer follows, and no cut goes unnoticed: reading fails, or gives the records of a prefix of the
    blocks, those in the range. *)
Theorem C28_avro_partial : forall code rank float_cast parse_schema parquet local_to_utc range tz dfs (blocks : list (wblock * list value)) bytes lost,
  (forall w vs, In (w, vs) blocks -> w_version w = V1 /\ logged parse_schema encodes dfs w vs /\ exists b, range_says local_to_utc range tz w b) ->
  bytes ++ lost = put_log (map fst blocks) ->
  (forall out, read_all_blocks avro value record_batch parse_schema decode check_schema (to_batch code rank float_cast) parquet local_to_utc range tz bytes <> Ok out)
  \/ exists before after torn kept out,
       blocks = (before ++ after)%list /\ bytes = put_log (map fst before) ++ torn /\ (String.length torn < 6)%nat
       /\ selects (fun x => range_says local_to_utc range tz (fst x) true) before kept
       /\ read_all_blocks avro value record_batch parse_schema decode check_schema (to_batch code rank float_cast) parquet local_to_utc range tz bytes = Ok out
       /\ Forall2 (fun x b => lb_header b = w_header (fst x) /\ S_Reader.rows_of (lb_batches b) = map (row_of code rank dfs) (snd x)) kept out.
Proof.
  intros code rank float_cast parse_schema parquet local_to_utc range tz dfs blocks bytes lost H E.
  destruct (taken_log avro value record_batch parse_schema decode check_schema (to_batch code rank float_cast) parquet local_to_utc range tz
    (map (block_batches code rank float_cast parse_schema) blocks) bytes lost) as [N|[b1 [b2 [torn [kept [Eb [Et [Lt [Sk R]]]]]]]]].
  - intros x I. apply in_map_iff in I as [[w vs] [<- I]]. destruct (H w vs I) as [_ [L _]]. cbn [block_batches fst snd]. apply (logged_block code rank float_cast parse_schema decode parquet dfs). now apply stored_logged.
  - intros x I. apply in_map_iff in I as [[w vs] [<- I]]. destruct (H w vs I) as [V [L _]]. right. cbn [block_batches fst]. now apply stored_taken with (1 := L).
  - intros x I. apply in_map_iff in I as [[w vs] [<- I]]. now apply (H w vs I).
  - rewrite map_map. exact E.
  - left. exact N.
  - right. apply map_eq_app in Eb as [before [after [-> [<- <-]]]]. rewrite map_map in Et. cbn [block_batches fst] in Et.
    destruct (selects_map _ _ (block_batches code rank float_cast parse_schema) (fun x => range_says local_to_utc range tz (fst x) true) _ before kept (fun x _ => iff_refl _) Sk) as [kept' [-> Sk']].
    exists before, after, torn, kept'. eexists. split; [reflexivity|]. split; [exact Et|]. split; [exact Lt|]. split; [exact Sk'|]. split; [exact R|].
    assert (Lg : forall x, In x kept' -> logged parse_schema encodes dfs (fst x) (snd x)).
    { intros [w vs] I. apply (L_Values.selects_in _ _ _ _ _ Sk') in I as [I _]. apply (H w vs). apply in_or_app. now left. }
    clear -Lg. induction kept' as [|x l IH]; [constructor|]. cbn [map]. constructor; [|apply IH; intros y I; apply Lg; now right].
    split; [reflexivity|]. cbn [block_of lb_batches block_batches fst snd]. apply (logged_block code rank float_cast parse_schema decode (fun _ => None) dfs). apply stored_logged. apply Lg. now left.
Qed.
Print Assumptions C28_avro_partial.
Example C28_avro_case : (forall w vs, In (w, vs) (vx_contents (fm_name hx_log1)) -> w_version w = V1 /\ logged vx_parse encodes vx_dfs w vs /\ exists b, range_says hx_local (up_to hx_t6 "utc") "utc" w b)
  /\ forall n, (n < String.length (put_log [vx_block2]))%nat -> (6 <= n)%nat -> exists e, dx_read (take n (put_log [vx_block2])) = Err e.
Proof.
  split.
  - intros w vs I. rewrite vx_contents1 in I. destruct I as [[= <- <-]|[[= <- <-]|[[= <- <-]|[]]]].
    + split; [reflexivity|]. split; [exact dx_block2|]. exists true. exists hx_t2. split; [now left|vm_compute; reflexivity].
    + split; [reflexivity|]. split; [exact dx_block3|]. exists true. exists hx_t3. split; [now left|vm_compute; reflexivity].
    + split; [reflexivity|]. split; [exact dx_undo|]. exists true. exists hx_t4. split; [now left|vm_compute; reflexivity].
  - assert (A : forallb (fun n => match dx_read (take n (put_log [vx_block2])) with Err _ => true | _ => false end) (seq 6 (String.length (put_log [vx_block2]) - 6)) = true) by (vm_compute; reflexivity).
    intros n L G. rewrite forallb_forall in A. specialize (A n). rewrite in_seq in A. specialize (A ltac:(lia)).
    destruct (dx_read (take n (put_log [vx_block2]))) as [x|e|]; [discriminate|now exists e|discriminate].
Qed.
(** In versions 2 and 3 it is false: the file ends inside the only record, in its key, and reading returns the
    record without the key and without what follows it. *)
Theorem C28_avro_refuted : exists w v bytes lost block row,
  w_version w = V2 /\ logged vx_parse encodes vx_dfs w [v] /\ put_log [w] = bytes ++ lost /\ lost <> ""
  /\ read_all_blocks avro value record_batch vx_parse decode check_schema (to_batch vx_code vx_rank vx_cast) (fun _ => None) hx_local (up_to hx_t6 "utc") "utc" bytes = Ok [block]
  /\ S_Reader.rows_of (lb_batches block) = [row] /\ nth_error row 2 = Some Null
  /\ nth_error (row_of vx_code vx_rank vx_dfs v) 2 = Some (VText "a").
Proof.
  exists dx_block, vx_a2, dx_cut, (drop 111 (put_log [dx_block])). do 2 eexists. split; [reflexivity|]. split; [exact dx_block_ok|]. split; [symmetry; apply take_drop|].
  split; [vm_compute; discriminate|]. split; [vm_compute; reflexivity|]. split; [reflexivity|]. split; reflexivity.
Qed.
Print Assumptions C28_avro_refuted.
