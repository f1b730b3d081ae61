(** C90: records keep their columns when the columns of the table change. *)
From Verif Require Import Base Str M_Utf8 M_Time M_Instant M_Timeline M_FileGroup M_Builder M_Listing M_Expr M_Log M_Config M_Reader M_Table M_Storage M_Avro M_Values M_Datum M_Json M_Objects M_Open
  S_Time S_Timeline S_FileGroup S_Builder S_Listing S_Expr S_Log S_Reader S_Config S_Table S_Avro S_Storage S_Objects S_Open S_History S_Values S_Datum S_Json S_Whole S_Evolved
  L_Base L_Str L_Log L_Reader L_Evolved E_Scan E_Open E_History E_Values E_Datum E_Json E_Whole E_Crash P_Whole P_WholeChanges P_Follow P_Bases P_Crash.
Local Open Scope string_scope.

(** A file slice is read.  The batches of its log files have the columns of the base file, in their order, and maybe more.
    The result has the columns of the base file, one row for every key, the latest one, and every row has in each
    column the value that was written in the column of that name. *)
Theorem C90_kept_partial : forall sort iter read_parquet avro_schema avro_value parse_schema datum check_schema to_batch parquet local_to_utc fetch
    m slice tz files base p s k, sorts sort -> visits iter ->
  fs_logs slice <> [] -> oget "hoodie.read.use.read_optimized.mode" m <> Some "true" -> timeline_timezone m = Ok tz ->
  map (log_relative_path slice) (fs_logs slice) = map fst files ->
  (forall f, In f files -> file_ok avro_schema avro_value record_batch parse_schema datum check_schema to_batch parquet local_to_utc fetch (read_range tz m) tz f) ->
  read_base_file read_parquet m (base_relative_path slice) = Ok base ->
  merges_latest m -> merge_columns m (rb_fields base) p s k -> wf_batch (rb_fields base) base ->
  (forall f x b, In f files -> In x (snd f) -> In b (snd x) -> wider (rb_fields base) b) ->
  exists kept out,
    selects (surviving record_batch local_to_utc (read_range tz m) tz (List.concat (map snd files))) (List.concat (map snd files)) kept
    /\ read_file_slice sort iter read_parquet avro_schema avro_value parse_schema datum check_schema to_batch parquet local_to_utc fetch m slice = Ok out /\ rb_fields out = rb_fields base
    /\ latest_rows k p s (map (firstn (List.length (rb_fields base))) (S_Reader.rows_of (base :: List.concat (map snd kept)))) (rb_rows out)
    /\ forall r, In r (rb_rows out) -> exists b r0, In b (base :: List.concat (map snd kept)) /\ In r0 (rb_rows b) /\ same_values (map f_name (rb_fields base)) b r0 out r.
Proof.
  intros sort iter rp A B ps da cs tob pq L fetch m slice tz files base p s k HS HI NL RO TZ P F RB ML MC WB WF. destruct (scan_ok _ _ _ _ _ _ _ _ _ _ _ _ _ F) as [kept [K E]].
  assert (W : Forall (wider (rb_fields base)) (base :: List.concat (map snd kept))).
  { constructor; [now apply wider_same|]. apply Forall_forall. intros b Ib. apply in_concat in Ib as [bs [Ib1 Ib2]]. apply in_map_iff in Ib1 as [x [ <- Ix]]. apply (L_Log.selects_in _ _ _ K) in Ix as [Ix _].
    apply in_concat in Ix as [l [Il Ix]]. apply in_map_iff in Il as [f [ <- If]]. now apply (WF f x). }
  destruct (merge_exact sort iter m (rb_fields base) (map (cut (rb_fields base)) (base :: List.concat (map snd kept))) p s k HS HI (conj ML MC)) as [out [O1 [O2 O3]]].
  { apply Forall_forall. intros b Ib. apply in_map_iff in Ib as [b0 [ <- Ib]]. apply wider_cut. rewrite Forall_forall in W. now apply W. }
  rewrite rows_cut in O3. exists kept, out. split; [exact K|]. split; [|split; [exact O2|split; [exact O3|]]].
  - unfold read_file_slice. cbn zeta. assert (Lf : has_log_file slice = true) by (unfold has_log_file; destruct (fs_logs slice); [congruence|reflexivity]). rewrite Lf. cbn [negb]. rewrite (not_read_optimized _ RO). cbn [bind].
    rewrite RB. cbn [bind]. rewrite (log_range_is _ _ TZ), TZ. cbn [bind]. rewrite P, E. cbn [bind]. rewrite (merge_wider _ _ _ _ _ W). exact O1.
  - intros r I. apply O3 in I as [I _]. apply in_map_iff in I as [r0 [ <- I]]. unfold S_Reader.rows_of in I. apply in_concat in I as [rows [Ir I]]. apply in_map_iff in Ir as [b [ <- Ib]].
    exists b, r0. split; [exact Ib|]. split; [exact I|]. apply cut_values; [|exact O2]. rewrite Forall_forall in W. now apply W.
Qed.
Print Assumptions C90_kept_partial.

(** If a batch of the log files lacks the last columns of the base file, reading the file slice panics. *)
Theorem C90_lacking_panics : forall sort iter read_parquet avro_schema avro_value parse_schema datum check_schema to_batch parquet local_to_utc fetch
    m slice tz files base kept,
  fs_logs slice <> [] -> oget "hoodie.read.use.read_optimized.mode" m <> Some "true" -> timeline_timezone m = Ok tz ->
  map (log_relative_path slice) (fs_logs slice) = map fst files ->
  (forall f, In f files -> file_ok avro_schema avro_value record_batch parse_schema datum check_schema to_batch parquet local_to_utc fetch (read_range tz m) tz f) ->
  read_base_file read_parquet m (base_relative_path slice) = Ok base ->
  selects (surviving record_batch local_to_utc (read_range tz m) tz (List.concat (map snd files))) (List.concat (map snd files)) kept ->
  Forall (types_agree (rb_fields base)) (List.concat (map snd kept)) -> (exists b, In b (List.concat (map snd kept)) /\ narrower (rb_fields base) b) ->
  read_file_slice sort iter read_parquet avro_schema avro_value parse_schema datum check_schema to_batch parquet local_to_utc fetch m slice = Panic.
Proof.
  intros sort iter rp A B ps da cs tob pq L fetch m slice tz files base kept NL RO TZ P F RB K T [b [Ib N]]. destruct (scan_ok _ _ _ _ _ _ _ _ _ _ _ _ _ F) as [kept' [K' E]].
  assert (kept' = kept) by (apply (L_Log.selects_fun _ _ _ _ K' K)). subst kept'.
  unfold read_file_slice. cbn zeta. assert (Lf : has_log_file slice = true) by (unfold has_log_file; destruct (fs_logs slice); [congruence|reflexivity]). rewrite Lf. cbn [negb]. rewrite (not_read_optimized _ RO). cbn [bind].
  rewrite RB. cbn [bind]. rewrite (log_range_is _ _ TZ), TZ. cbn [bind]. rewrite P, E. cbn [bind]. apply merge_narrower.
  - constructor; [|exact T]. intros i f g N1 N2. congruence.
  - exists b. split; [now right|exact N].
Qed.
Print Assumptions C90_lacking_panics.

(** Example: a log file of two blocks in Parquet, one with another column after those of the base file. *)
Definition nx_slice : file_slice :=
  {| fs_base := {| bf_file_id := "f"; bf_write_token := "0-0-0"; bf_commit := hx_t1; bf_ext := "parquet"; bf_meta := None |};
     fs_logs := [{| lf_file_id := "f"; lf_base_commit := hx_t1; lf_ext := "log"; lf_version := "1"; lf_write_token := "0-0-0"; lf_meta := None |}];
     fs_partition := "" |}.
Definition nx_city : M_Reader.field := {| f_name := "city"; f_type := TUtf8; f_null := true |}.
Definition nx_wide (rows : list (list cell)) : record_batch := {| rb_fields := (hx_sch ++ [nx_city])%list; rb_rows := rows |}.
Definition nx_a3 : list cell := (hx_a3 ++ [VText "Rome"])%list.
Definition nx_decode (s : string) : option (list record_batch) :=
  if String.eqb s "a2" then Some [hx_batch [hx_a2]] else if String.eqb s "a3" then Some [nx_wide [nx_a3]] else None.
Definition nx_log : list (wblock * list record_batch) := [(hx_data hx_t2 "a2", [hx_batch [hx_a2]]); (hx_data hx_t3 "a3", [nx_wide [nx_a3]])].
Definition nx_log_path : string := ".f_20250101000000000.log.1_0-0-0".
Definition nx_fetch (p : string) : outcome string := if String.eqb p nx_log_path then Ok (put_log (map fst nx_log)) else Err EStorage.
Definition nx_options : options := [("hoodie.read.file_group.end_timestamp", hx_t3); ("hoodie.table.precombine.field", "ts")].
Definition nx_file_ok := file_ok unit unit record_batch (fun _ => None) (fun _ _ => None) (fun _ => Ok tt) (fun _ _ => Err EArrow) nx_decode hx_local nx_fetch.
Definition nx_read (base : record_batch) := read_file_slice (@L_Reader.isort _) (fun m => m) (fun p => if String.eqb p (base_relative_path nx_slice) then Ok base else Err EStorage)
  unit unit (fun _ => None) (fun _ _ => None) (fun _ => Ok tt) (fun _ _ => Err EArrow) nx_decode hx_local nx_fetch nx_options nx_slice.
Fact nx_wf : forall t b bs, In t [hx_t2; hx_t3] -> nx_decode b = Some bs -> (len b < 2 ^ 64)%N ->
  wf_block unit unit record_batch (fun _ => None) (fun _ _ => None) (fun _ => Ok tt) (fun _ _ => Err EArrow) nx_decode (hx_data t b) bs.
Proof.
  intros t b bs T D L. split; cbn [hx_data w_version w_header w_content w_footer put_content].
  - discriminate.
  - split; [repeat constructor; intros []|]. intros k v [E|[]]. injection E as <- <-. destruct T as [ <- |[ <- |[]]]; split; reflexivity.
  - split; [split; [constructor|intros k v []]|]. intros N. now elim N.
  - exists t. now left.
  - exact L.
  - discriminate.
  - now apply holds_parquet.
Qed.
Fact nx_log_ok : forall f, In f [(nx_log_path, nx_log)] -> nx_file_ok (read_range "utc" nx_options) "utc" f.
Proof.
  intros f [ <- |[]]. split; [reflexivity|]. intros x [ <- |[ <- |[]]].
  - split; [apply nx_wf; [now left|reflexivity|reflexivity]|]. split; [intros v [=]|]. exists true, hx_t2. split; [now left|reflexivity].
  - split; [apply nx_wf; [right; now left|reflexivity|reflexivity]|]. split; [intros v [=]|]. exists true, hx_t3. split; [now left|reflexivity].
Qed.
Fact nx_survive : selects (surviving record_batch hx_local (read_range "utc" nx_options) "utc" nx_log) nx_log nx_log.
Proof.
  assert (N : forall y t, In y nx_log -> ~ rolls_back (fst y) t) by (intros y t [ <- |[ <- |[]]] [C _]; discriminate C).
  assert (P : forall x, In x nx_log -> surviving record_batch hx_local (read_range "utc" nx_options) "utc" nx_log x).
  { intros x I. split; [destruct I as [ <- |[ <- |[]]]; [exists hx_t2|exists hx_t3]; (split; [now left|reflexivity])|]. intros [y [t [I1 [_ [R _]]]]]. now apply (N y t). }
  apply sel_keep; [apply P; now left|]. apply sel_keep; [apply P; right; now left|]. constructor.
Qed.
Example C90_kept_case : fs_logs nx_slice <> [] /\ oget "hoodie.read.use.read_optimized.mode" nx_options <> Some "true" /\ timeline_timezone nx_options = Ok "utc"
  /\ map (log_relative_path nx_slice) (fs_logs nx_slice) = [nx_log_path] /\ (forall f, In f [(nx_log_path, nx_log)] -> nx_file_ok (read_range "utc" nx_options) "utc" f)
  /\ merges_latest nx_options /\ merge_columns nx_options hx_sch 3 1 2 /\ wf_batch hx_sch (hx_batch [hx_a1; hx_b1])
  /\ (forall x b, In x nx_log -> In b (snd x) -> wider hx_sch b) /\ ~ wf_batch hx_sch (nx_wide [nx_a3])
  /\ nx_read (hx_batch [hx_a1; hx_b1]) = Ok (hx_batch [hx_a3; hx_b1]).
Proof.
  split; [discriminate|]. split; [discriminate|]. split; [reflexivity|]. split; [reflexivity|]. split; [exact nx_log_ok|].
  split; [right; split; [intros v [=]|split; discriminate]|].
  split; [split; [exists "ts", TInt; split; [reflexivity|]; split; [hx_column|discriminate]|split; hx_column]|].
  split; [split; [reflexivity|repeat constructor; discriminate]|]. split.
  { intros x b [ <- |[ <- |[]]] [ <- |[]]; (split; [eexists; reflexivity|]); repeat constructor; try discriminate. }
  split; [intros [F _]; discriminate F|vm_compute; reflexivity].
Qed.

(** The base file has the column, the first block of the log file lacks it. *)
Example C90_lacking_panics_case : Forall (types_agree (hx_sch ++ [nx_city])%list) (List.concat (map snd nx_log)) /\ In (hx_batch [hx_a2]) (List.concat (map snd nx_log))
  /\ narrower (hx_sch ++ [nx_city])%list (hx_batch [hx_a2]) /\ selects (surviving record_batch hx_local (read_range "utc" nx_options) "utc" nx_log) nx_log nx_log
  /\ nx_read (nx_wide [(hx_a1 ++ [VText "Bonn"])%list]) = Panic.
Proof.
  split; [|split; [now left|split; [apply Nat.ltb_lt; reflexivity|split; [exact nx_survive|vm_compute; reflexivity]]]].
  repeat constructor; intros i f g N1 N2; do 6 (destruct i as [|i]; [cbn in N1, N2; congruence|]); destruct i; discriminate N1.
Qed.

(** A table with one file group: a base file, and a deltacommit with a log file of one block of Avro records whose
    schema is another one. *)
Definition nx_names (base schema record : string) : list (string * string) :=
  [(".hoodie/hoodie.properties", lines_of ["hoodie.table.name=t"; "hoodie.table.type=MERGE_ON_READ"; "hoodie.table.version=6"; "hoodie.timeline.layout.version=1";
      "hoodie.table.precombine.field=ts"; "hoodie.datasource.write.hive_style_partitioning=false"; "hoodie.datasource.write.partitionpath.urlencode=false"]);
   (".hoodie/20250101000000000.commit", wx_commit (wx_stat "f" (fm_name hx_base1)) "");
   (".hoodie/20250102000000000.deltacommit", wx_commit (wx_delta "f" (fm_name hx_base1) ("""" ++ fm_name hx_log1 ++ """")) "");
   (fm_name hx_base1, base);
   (fm_name hx_log1, put_log [{| w_version := V1; w_header := [(InstantTime, hx_t2); (Schema, schema)]; w_content := CAvro [record]; w_footer := [] |}])].
Definition nx_added : list (string * list string * avro) := (vx_fields ++ [("city", [], vx_nullable ScString)])%list.
Definition nx_swapped : list (string * list string * avro) :=
  [("_hoodie_commit_time", [], vx_nullable ScString); ("_hoodie_record_key", [], vx_nullable ScString); ("_hoodie_commit_seqno", [], vx_nullable ScString); ("ts", [], vx_nullable ScLong)].
Definition nx_parse (text : string) : option avro :=
  if String.eqb text "{added}" then Some (ScRecord nx_added) else if String.eqb text "{swapped}" then Some (ScRecord nx_swapped) else vx_parse text.
Definition nx_rows (d : string) : outcome record_batch :=
  if String.eqb d "wide" then Ok (nx_wide [(hx_a1 ++ [VText "Bonn"])%list; (hx_b1 ++ [VText "Bern"])%list]) else wx_rows d.
Definition nx_store (objs : list object) : store unit :=
  object_store objs sx_base unit (parse_metadata jx_number jx_collect) (fun _ => Ok [("ts", tt)]) nx_rows (fun _ => Ok (1, 1)%Z) (fun _ _ => Ok tt).
Definition nx_snapshot (objs : list object) (o : outcome (list record_batch)) : Prop := exists c',
  read_snapshot unit string (fun _ s => Some s) (fun a b => Some (scmp a b)) avro value nx_parse decode check_schema (to_batch vx_code vx_rank vx_cast) (fun _ => None)
    hx_local (nx_store objs) (kx_table objs) [] [] c' o.
(** The Avro bytes of a record with a long after texts. *)
Definition nx_record (texts : list string) (ts : nat) : string := List.fold_right (fun s r => vx_byte 1 ++ vx_text s ++ r) (vx_byte 1 ++ vx_byte ts) texts.

(** Refuted: the column "city" was added after the base file was written.  The record written with it last is read
    without it. *)
Definition nx_added_objs : list object := at_names (nx_names "b1" "{added}" (nx_record [hx_t2; "3"; "a"] 2 ++ vx_byte 1 ++ vx_text "Rome")).
Theorem C90_added_refuted : kx_build nx_added_objs = Ok (kx_table nx_added_objs, sx_base, nx_added_objs)
  /\ decode (ScRecord nx_added) (nx_record [hx_t2; "3"; "a"] 2 ++ vx_byte 1 ++ vx_text "Rome")
     = Some (AvRecord [("_hoodie_commit_time", AvUnion 1 (AvString hx_t2)); ("_hoodie_commit_seqno", AvUnion 1 (AvString "3")); ("_hoodie_record_key", AvUnion 1 (AvString "a"));
                       ("ts", AvUnion 1 (AvLong 2)); ("city", AvUnion 1 (AvString "Rome"))], "")
  /\ nx_snapshot nx_added_objs (Ok [hx_batch [hx_a2; hx_b1]]).
Proof. split; [vm_compute; reflexivity|]. split; [vm_compute; reflexivity|]. kx_some. kx_slices. match goal with |- joined _ (Ok ?l) => exact (jo_ok l) end. Qed.
Print Assumptions C90_added_refuted.

(** Refuted: the log file was written without the last column of the base file.  The table cannot be read. *)
Definition nx_removed_objs : list object := at_names (nx_names "wide" "{record}" (nx_record [hx_t2; "3"; "a"] 2)).
Theorem C90_removed_refuted : kx_build nx_removed_objs = Ok (kx_table nx_removed_objs, sx_base, nx_removed_objs) /\ nx_snapshot nx_removed_objs Panic.
Proof. split; [vm_compute; reflexivity|]. kx_some. kx_slices. apply jo_panic. cbn [In]. now left. Qed.
Print Assumptions C90_removed_refuted.

(** Refuted: the log file has the columns of the base file in another order.  The record with key "a" and number "3" is
    read as a record with key "3" and number "a", beside the older record with key "a". *)
Definition nx_swapped_objs : list object := at_names (nx_names "b1" "{swapped}" (nx_record [hx_t2; "a"; "3"] 2)).
Theorem C90_reordered_refuted : kx_build nx_swapped_objs = Ok (kx_table nx_swapped_objs, sx_base, nx_swapped_objs)
  /\ decode (ScRecord nx_swapped) (nx_record [hx_t2; "a"; "3"] 2)
     = Some (AvRecord [("_hoodie_commit_time", AvUnion 1 (AvString hx_t2)); ("_hoodie_record_key", AvUnion 1 (AvString "a")); ("_hoodie_commit_seqno", AvUnion 1 (AvString "3"));
                       ("ts", AvUnion 1 (AvLong 2))], "")
  /\ nx_snapshot nx_swapped_objs (Ok [hx_batch [hx_row hx_t2 "a" "3" 2; hx_b1; hx_a1]]).
Proof. split; [vm_compute; reflexivity|]. split; [vm_compute; reflexivity|]. kx_some. kx_slices. match goal with |- joined _ (Ok ?l) => exact (jo_ok l) end. Qed.
Print Assumptions C90_reordered_refuted.
