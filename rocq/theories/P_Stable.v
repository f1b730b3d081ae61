(** Property C55 for single file slices: log blocks written after the time of a read do not change what it returns,
    whatever the log files hold, with no assumption on how the writers made them. *)
From Coq Require Import Sorted.
From Verif Require Import Base Str L_Base L_Str M_Time S_Time L_Time M_Timeline S_Timeline M_FileGroup M_Expr M_Log S_Log L_Log M_Config M_Reader S_Reader L_Config L_Timeline L_Reader P_Reader.
Local Open Scope string_scope.

(** The block was written at a moment that is not after [stop]. *)
Definition block_up_to (stop : Z) (x : wblock * list record_batch) : Prop :=
  exists c ts, at_instant (fst x) (render c) /\ valid_civil c /\ denotes_millis c ts /\ (ts <= stop)%Z.
(** The blocks of some log files, in the order of the files, up to [stop]. *)
Definition blocks_up_to (stop : Z) (files : list (string * list (wblock * list record_batch))) (early : list (wblock * list record_batch)) : Prop :=
  selects (block_up_to stop) (List.concat (map snd files)) early.
(** Every block has a calendar time. *)
Definition at_calendar_times (files : list (string * list (wblock * list record_batch))) : Prop :=
  forall f x, In f files -> In x (snd f) -> exists c ts, at_instant (fst x) (render c) /\ valid_civil c /\ denotes_millis c ts.

Section Scans.
Variable avro_schema avro_value : Type.
Variable parse_schema : string -> option avro_schema.
Variable datum : avro_schema -> string -> option (avro_value * string).
Variable check_schema : avro_schema -> outcome unit.
Variable to_batch : avro_schema -> list avro_value -> outcome record_batch.
Variable parquet : string -> option (list record_batch).
Variable local_to_utc : ndt -> option ndt.
Notation ok_file := (file_ok avro_schema avro_value record_batch parse_schema datum check_schema to_batch parquet local_to_utc).
Notation scan_ := (scan avro_schema avro_value record_batch parse_schema datum check_schema to_batch parquet local_to_utc).
Variable m : options.
Variable stop : civil.
Variable stop_time : Z.
Hypothesis NS : read_start m = None.
Hypothesis RE : read_end m = Some (render stop).
Hypothesis VE : valid_civil stop.
Hypothesis DE : denotes_millis stop stop_time.

Lemma up_to_range : forall fetch f files x, In f files -> In x (snd f) -> at_calendar_times files -> ok_file fetch (read_range "utc" m) "utc" f ->
  (block_up_to stop_time x <-> range_says local_to_utc (read_range "utc" m) "utc" (fst x) true).
Proof.
  intros fetch f files x If Ix C [_ W]. destruct (C f x If Ix) as [c [ts [A [V D]]]]. destruct (W x Ix) as [Wx _].
  destruct (wf_header _ _ _ _ _ _ _ _ _ _ Wx) as [ND _]. unfold range_says, read_range. rewrite NS, RE.
  change (Some (render stop)) with (option_map render (Some stop)). change None with (option_map render None).
  assert (R : forall c', valid_civil c' -> is_in_range local_to_utc {| r_timezone := "utc"; r_start := option_map render None; r_end := option_map render (Some stop);
      r_start_incl := false; r_end_incl := true |} (render c') "utc" = Ok (epoch_millis (civil_ndt c') <=? epoch_millis (civil_ndt stop))%Z).
  { intros c' V'. rewrite is_in_range_civil; try assumption; try reflexivity; exact I. }
  rewrite (denotes_unique _ _ VE DE). split.
  - intros [c' [ts' [A' [V' [D' L]]]]]. exists (render c'). split; [assumption|]. rewrite (R c' V'). f_equal. apply Z.leb_le. now rewrite <- (denotes_unique _ _ V' D').
  - intros [t [A' H]]. assert (t = render c) as -> by exact (nodup_fst_inj _ _ _ _ ND A' A). exists c, ts. split; [exact A|]. split; [exact V|]. split; [exact D|].
    rewrite (R c V) in H. injection H as H. apply Z.leb_le in H. now rewrite (denotes_unique _ _ V D).
Qed.

(** The batches of the blocks that survive depend on the blocks up to the end only. *)
Lemma scan_up_to : forall fetch files early, (forall f, In f files -> ok_file fetch (read_range "utc" m) "utc" f) -> at_calendar_times files ->
  blocks_up_to stop_time files early ->
  exists kept, selects (surviving record_batch local_to_utc (read_range "utc" m) "utc" early) early kept
    /\ scan_ fetch (read_range "utc" m) "utc" (map fst files) = Ok (map snd kept).
Proof.
  intros fetch files early F C B. destruct (scan_ok _ _ _ _ _ _ _ _ _ _ _ _ _ F) as [kept [K E]]. exists kept. split; [|exact E].
  assert (U : forall x, In x (List.concat (map snd files)) -> (block_up_to stop_time x <-> range_says local_to_utc (read_range "utc" m) "utc" (fst x) true)).
  { intros x Ix. apply in_concat in Ix as [l [Il Ix]]. apply in_map_iff in Il as [f [ <- If]]. apply (up_to_range fetch f files); auto. }
  assert (K' : selects (surviving record_batch local_to_utc (read_range "utc" m) "utc" early) (List.concat (map snd files)) kept).
  { eapply L_Log.selects_iff; [exact K|]. intros x Ix. unfold surviving. split; intros [S1 N]; (split; [exact S1|]); intros [y [t [Iy [Ry T]]]]; apply N; exists y, t; (split; [|auto]).
    - now apply (L_Log.selects_in _ _ _ B) in Iy.
    - apply (L_Log.selects_in _ _ _ B). split; [exact Iy|]. now apply U. }
  apply (selects_skip _ _ _ _ _ K' B). intros x Ix Nx [S1 _]. apply Nx. now apply U.
Qed.
End Scans.

(** C55, one slice: between two reads up to the same moment, blocks after that moment may be added to the log files of the
    slice, and log files with such blocks before, between and after its log files; the reads return the same. *)
Theorem C55_slice_stable_partial : forall sort iter read_parquet read_parquet' avro_schema avro_value parse_schema datum check_schema to_batch parquet local_to_utc
    fetch fetch' m slice slice' files files' early stop stop_time,
  read_start m = None -> read_end m = Some (render stop) -> valid_civil stop -> denotes_millis stop stop_time -> in_utc m ->
  base_relative_path slice' = base_relative_path slice ->
  read_parquet' (base_relative_path slice) = read_parquet (base_relative_path slice) ->
  fs_logs slice <> [] -> fs_logs slice' <> [] ->
  map (log_relative_path slice) (fs_logs slice) = map fst files ->
  map (log_relative_path slice') (fs_logs slice') = map fst files' ->
  (forall f, In f files -> file_ok avro_schema avro_value record_batch parse_schema datum check_schema to_batch parquet local_to_utc fetch (read_range "utc" m) "utc" f) ->
  (forall f, In f files' -> file_ok avro_schema avro_value record_batch parse_schema datum check_schema to_batch parquet local_to_utc fetch' (read_range "utc" m) "utc" f) ->
  at_calendar_times files -> at_calendar_times files' ->
  blocks_up_to stop_time files early -> blocks_up_to stop_time files' early ->
  read_file_slice sort iter read_parquet' avro_schema avro_value parse_schema datum check_schema to_batch parquet local_to_utc fetch' m slice'
  = read_file_slice sort iter read_parquet avro_schema avro_value parse_schema datum check_schema to_batch parquet local_to_utc fetch m slice.
Proof.
  intros sort iter rp rp' avs av ps dt cs tb pq l2u fetch fetch' m slice slice' files files' early stop st NS RE VE DE U EB ER N N' P P' F F' C C' B B'.
  destruct (scan_up_to avs av ps dt cs tb pq l2u m stop st NS RE VE DE fetch files early F C B) as [k [K E]].
  destruct (scan_up_to avs av ps dt cs tb pq l2u m stop st NS RE VE DE fetch' files' early F' C' B') as [k' [K' E']].
  rewrite (selects_fun _ _ _ _ K' K) in E'.
  unfold read_file_slice. cbn zeta. assert (L : has_log_file slice = true) by (unfold has_log_file; destruct (fs_logs slice); [congruence|reflexivity]).
  assert (L' : has_log_file slice' = true) by (unfold has_log_file; destruct (fs_logs slice'); [congruence|reflexivity]). rewrite L, L'. cbn [negb]. rewrite EB.
  assert (RB : read_base_file rp' m (base_relative_path slice) = read_base_file rp m (base_relative_path slice)) by (unfold read_base_file; now rewrite ER).
  rewrite RB. destruct (read_optimized m) as [[|]|e|]; cbn [bind]; try reflexivity. destruct (read_base_file rp m (base_relative_path slice)) as [base|e|]; cbn [bind]; try reflexivity.
  rewrite (log_range_is _ _ (utc_is _ U)), (utc_is _ U). cbn [bind]. now rewrite P, P', E, E'.
Qed.
Print Assumptions C55_slice_stable_partial.

(** The first log files of a slice, all of whose blocks are after the moment: the read merges now, and returns the rows of
    the base file, in some order, if they have different keys. *)
Theorem C55_first_logs_partial : forall sort iter read_parquet read_parquet' avro_schema avro_value parse_schema datum check_schema to_batch parquet local_to_utc
    fetch fetch' m slice slice' files' stop stop_time records p s k,
  sorts sort -> visits iter ->
  read_start m = None -> read_end m = Some (render stop) -> valid_civil stop -> denotes_millis stop stop_time -> in_utc m ->
  oget "hoodie.read.use.read_optimized.mode" m <> Some "true" ->
  base_relative_path slice' = base_relative_path slice ->
  read_parquet (base_relative_path slice) = Ok records -> read_parquet' (base_relative_path slice) = Ok records ->
  wf_batch (rb_fields records) records -> merges_latest m -> merge_columns m (rb_fields records) p s k -> NoDup (map (key_at k) (rb_rows records)) ->
  fs_logs slice = [] ->
  map (log_relative_path slice') (fs_logs slice') = map fst files' ->
  (forall f, In f files' -> file_ok avro_schema avro_value record_batch parse_schema datum check_schema to_batch parquet local_to_utc fetch' (read_range "utc" m) "utc" f) ->
  at_calendar_times files' -> (forall f x, In f files' -> In x (snd f) -> ~ block_up_to stop_time x) ->
  exists out out',
    read_file_slice sort iter read_parquet avro_schema avro_value parse_schema datum check_schema to_batch parquet local_to_utc fetch m slice = Ok out
    /\ read_file_slice sort iter read_parquet' avro_schema avro_value parse_schema datum check_schema to_batch parquet local_to_utc fetch' m slice' = Ok out'
    /\ rb_fields out' = rb_fields out /\ Permutation (rb_rows out) (rb_rows out').
Proof.
  intros sort iter rp rp' avs av ps dt cs tb pq l2u fetch fetch' m slice slice' files' stop st records p s k
    HS HI NS RE VE DE U RO EB ER ER' WB ML MC ND N P' F' C' B'.
  assert (R0 : forall rp0, rp0 (base_relative_path slice) = Ok records -> read_base_file rp0 m (base_relative_path slice) = Ok records).
  { intros rp0 E0. apply base_all; [exact E0|]. now right. }
  exists records. rewrite slice_read_optimized by now right. destruct (fs_logs slice') as [|l0 ls'] eqn:El.
  { exists records. rewrite slice_read_optimized by now right. rewrite EB. repeat split; auto. }
  rewrite <- El in P'. assert (Bn : blocks_up_to st files' []).
  { unfold blocks_up_to. assert (G : forall x, In x (List.concat (map snd files')) -> ~ block_up_to st x).
    { intros x Ix. apply in_concat in Ix as [l [Il Ix]]. apply in_map_iff in Il as [f [ <- If]]. eauto. }
    revert G. generalize (List.concat (map snd files')). induction l as [|y l IH]; intros G; [constructor|]. apply sel_drop; [apply G; now left|]. apply IH. intros x Ix. apply G. now right. }
  destruct (scan_up_to avs av ps dt cs tb pq l2u m stop st NS RE VE DE fetch' files' [] F' C' Bn) as [k' [K' E']]. inversion K'; subst k'.
  destruct (merge_exact sort iter m (rb_fields records) [records] p s k HS HI (conj ML MC)) as [out [O1 [O2 O3]]]; [now constructor|].
  exists out. split; [now apply R0|]. split; [|split; [exact O2|]].
  - unfold read_file_slice. cbn zeta. unfold has_log_file. rewrite El. cbn [negb]. rewrite (not_read_optimized _ RO). cbn [bind]. rewrite EB, (R0 _ ER'). cbn [bind].
    rewrite (log_range_is _ _ (utc_is _ U)), (utc_is _ U). cbn [bind]. rewrite <- El, P', E'. cbn [bind]. exact O1.
  - destruct O3 as [D1 [D2 D3]]. unfold rows_of in *. cbn [map List.concat] in *. rewrite app_nil_r in *. apply NoDup_Permutation.
    + exact (NoDup_map_inv _ _ ND).
    + exact (NoDup_map_inv _ _ D1).
    + intros r. split; [|intros I; apply (D3 r I)]. intros I. destruct (D2 r I) as [r' [I' Ek]]. assert (r' = r) as <-; [|exact I'].
      destruct (D3 r' I') as [I2 _]. revert ND I I2 Ek. generalize (rb_rows records). clear. induction l as [|y l IH]; intros ND I I2 Ek; [destruct I|].
      inversion ND as [|? ? Ny ND']; subst. destruct I as [ -> | I]; destruct I2 as [ -> | I2]; auto.
      * exfalso. apply Ny. rewrite <- Ek. now apply in_map.
      * exfalso. apply Ny. rewrite Ek. now apply in_map.
Qed.
Print Assumptions C55_first_logs_partial.

(** Example: the slice of C36 as of January 2.  Later its log file gets another block, and a second log file rolls back
    the block of January 2. *)
Definition sx_slice' : file_slice :=
  {| fs_base := fs_base ex_slice;
     fs_logs := fs_logs ex_slice ++ [{| lf_file_id := "f"; lf_base_commit := "20250101000000000"; lf_ext := "log"; lf_version := "2"; lf_write_token := "0-0-0"; lf_meta := None |}];
     fs_partition := "p" |}%list.
Definition sx_first : list (wblock * list record_batch) := [(ex_wblock "20250102000000000" "B!", [ex_b])].
Definition sx_rollback : wblock :=
  {| w_version := V1; w_header := [(InstantTime, "20250103000000000"); (TargetInstantTime, "20250102000000000"); (CommandBlockType, "0")]; w_content := CCommand; w_footer := [] |}.
Definition sx_files : list (string * list (wblock * list record_batch)) := [(ex_log_path, sx_first)].
Definition sx_files' : list (string * list (wblock * list record_batch)) := [(ex_log_path, ex_log); ("p/.f_20250101000000000.log.2_0-0-0", [(sx_rollback, [])])].
Definition sx_fetch (files : list (string * list (wblock * list record_batch))) (p : string) : outcome string :=
  match find (fun f => String.eqb (fst f) p) files with Some f => Ok (put_log (map fst (snd f))) | None => Err EStorage end.
Definition sx_day (d : Z) : civil := {| c_year := 2025; c_month := 1; c_day := d; c_hour := 0; c_min := 0; c_sec := 0; c_ms := Some 0%Z |}.
Definition sx_read (files : list (string * list (wblock * list record_batch))) := read_file_slice isort (fun m => m) ex_base_of unit unit (fun _ => None) (fun _ _ => None) (fun _ => Ok tt) (fun _ _ => Err EArrow) ex_decode ex_local (sx_fetch files).
Fact sx_valid : forall d, (1 <= d <= 31)%Z -> valid_civil (sx_day d).
Proof. intros d H. unfold valid_civil, sx_day. cbn. repeat split; try lia. exists 31%Z. split; [|exact H]. apply ml31. now left. Qed.
Definition sx_stop : Z := epoch_millis (civil_ndt (sx_day 2)).
Notation sx_ok files := (forall f, In f files -> file_ok unit unit record_batch (fun _ => None) (fun _ _ => None) (fun _ => Ok tt) (fun _ _ => Err EArrow) ex_decode ex_local
  (sx_fetch files) (read_range "utc" (ex_at "20250102000000000")) "utc" f).
Fact sx_rollback_wf : wf_block unit unit record_batch (fun _ => None) (fun _ _ => None) (fun _ => Ok tt) (fun _ _ => Err EArrow) ex_decode sx_rollback [].
Proof.
  split; cbn [sx_rollback w_version w_header w_content w_footer put_content].
  - discriminate.
  - split; [repeat constructor; cbn; intuition discriminate|]. intros k v [E|[E|[E|[]]]]; injection E as <- <-; split; reflexivity.
  - split; [split; [constructor|intros k v []]|]. intros N. now elim N.
  - exists "20250103000000000". now left.
  - reflexivity.
  - discriminate.
  - constructor.
Qed.
Fact sx_blocks : forall x, In x ex_log ->
  wf_block unit unit record_batch (fun _ => None) (fun _ _ => None) (fun _ => Ok tt) (fun _ _ => Err EArrow) ex_decode (fst x) (snd x)
  /\ target_given (fst x) /\ exists b, range_says ex_local (read_range "utc" (ex_at "20250102000000000")) "utc" (fst x) b.
Proof.
  intros x Ix. destruct (ex_log_ok "20250102000000000" (ex_log_path, ex_log) (or_introl eq_refl) (or_introl eq_refl)) as [_ W]. exact (W x Ix).
Qed.
Fact sx_files_ok : sx_ok sx_files.
Proof. intros f [ <- |[]]. split; [reflexivity|]. intros x [ <- |[]]. apply sx_blocks. now left. Qed.
Fact sx_files_ok' : sx_ok sx_files'.
Proof.
  intros f [ <- |[ <- |[]]]; (split; [reflexivity|]); intros x Ix; [now apply sx_blocks|]. destruct Ix as [ <- |[]]. split; [exact sx_rollback_wf|].
  split; [intros v _ _ _; exists "20250102000000000"; right; now left|]. exists false, "20250103000000000". split; [now left|]. reflexivity.
Qed.
Fact sx_second : block_up_to sx_stop (ex_wblock "20250102000000000" "B!", [ex_b]).
Proof. exists (sx_day 2), sx_stop. split; [now left|]. split; [apply sx_valid; lia|]. split; [apply epoch_denotes, sx_valid; lia|unfold sx_stop; lia]. Qed.
Fact sx_third : forall w bs, (forall t, at_instant w t -> t = "20250103000000000") -> ~ block_up_to sx_stop (w, bs).
Proof.
  intros w bs U [c [ts [A [V [D L]]]]]. apply U in A. cbn [fst] in A. assert (E : civil_ndt c = civil_ndt (sx_day 3)).
  { assert (P := parse_render c V). rewrite A in P. change "20250103000000000" with (render (sx_day 3)) in P. rewrite (parse_render (sx_day 3)) in P by (apply sx_valid; lia). congruence. }
  rewrite (denotes_unique _ _ V D), E in L. revert L. vm_compute. intros L. now apply L.
Qed.
Fact sx_early : blocks_up_to sx_stop sx_files sx_first /\ blocks_up_to sx_stop sx_files' sx_first.
Proof.
  split; (apply sel_keep; [exact sx_second|]); [constructor|]. apply sel_drop; [apply sx_third; intros t [[= <-]|[]]; reflexivity|].
  apply sel_drop; [apply sx_third; intros t [[= <-]|[E|[E|[]]]]; [reflexivity|discriminate|discriminate]|constructor].
Qed.
Fact sx_times : forall f x, In f (sx_files ++ sx_files')%list -> In x (snd f) -> exists c ts, at_instant (fst x) (render c) /\ valid_civil c /\ denotes_millis c ts.
Proof.
  assert (D : forall d w, (1 <= d <= 31)%Z -> at_instant w (render (sx_day d)) -> exists c ts, at_instant w (render c) /\ valid_civil c /\ denotes_millis c ts).
  { intros d w Hd A. exists (sx_day d), (epoch_millis (civil_ndt (sx_day d))). split; [exact A|]. split; [now apply sx_valid|]. apply epoch_denotes. now apply sx_valid. }
  intros f x [ <- |[ <- |[ <- |[]]]]; cbn [snd].
  - intros [ <- |[]]. apply (D 2%Z); [lia|now left].
  - intros [ <- |[ <- |[]]]; [apply (D 2%Z)|apply (D 3%Z)]; try lia; now left.
  - intros [ <- |[]]. apply (D 3%Z); [lia|now left].
Qed.
Example C55_slice_case : sx_read sx_files' (ex_at "20250102000000000") sx_slice' = sx_read sx_files (ex_at "20250102000000000") ex_slice.
Proof.
  apply (C55_slice_stable_partial isort (fun m => m) ex_base_of ex_base_of unit unit (fun _ => None) (fun _ _ => None) (fun _ => Ok tt) (fun _ _ => Err EArrow) ex_decode ex_local
    (sx_fetch sx_files) (sx_fetch sx_files') (ex_at "20250102000000000") ex_slice sx_slice' sx_files sx_files' sx_first (sx_day 2) sx_stop); try reflexivity.
  - apply sx_valid. lia.
  - apply epoch_denotes, sx_valid. lia.
  - intros v [=].
  - discriminate.
  - discriminate.
  - exact sx_files_ok.
  - exact sx_files_ok'.
  - intros f x If. apply sx_times, in_or_app. now left.
  - intros f x If. apply sx_times, in_or_app. now right.
  - apply sx_early.
  - apply sx_early.
Qed.
(** As of January 3 the two slices differ. *)
Example C55_slice_values : sx_read sx_files (ex_at "20250102000000000") ex_slice
    = Ok {| rb_fields := ex_sch; rb_rows := [ex_row "20250102000000000" "3" "a" 9; ex_row "20250101000000000" "2" "b" 7] |}
  /\ sx_read sx_files' (ex_at "20250103000000000") sx_slice' = Ok {| rb_fields := ex_sch; rb_rows := [ex_row "20250103000000000" "4" "a" 8; ex_row "20250101000000000" "2" "b" 7] |}.
Proof. split; vm_compute; reflexivity. Qed.
(** The slice before its first log file. *)
Definition sx_bare : file_slice := {| fs_base := fs_base ex_slice; fs_logs := []; fs_partition := "p" |}.
Definition sx_one : file_slice := {| fs_base := fs_base ex_slice; fs_logs := skipn 1 (fs_logs sx_slice'); fs_partition := "p" |}.
Example C55_first_case : exists out out', sx_read sx_files (ex_at "20250102000000000") sx_bare = Ok out /\ sx_read sx_files' (ex_at "20250102000000000") sx_one = Ok out'
  /\ rb_fields out' = rb_fields out /\ Permutation (rb_rows out) (rb_rows out').
Proof.
  apply (C55_first_logs_partial isort (fun m => m) ex_base_of ex_base_of unit unit (fun _ => None) (fun _ _ => None) (fun _ => Ok tt) (fun _ _ => Err EArrow) ex_decode ex_local
    (sx_fetch sx_files) (sx_fetch sx_files') (ex_at "20250102000000000") sx_bare sx_one (skipn 1 sx_files') (sx_day 2) sx_stop ex_a 3 1 2); try reflexivity.
  - apply isort_sorts.
  - intros l. apply Permutation_refl.
  - apply sx_valid. lia.
  - apply epoch_denotes, sx_valid. lia.
  - intros v [=].
  - discriminate.
  - apply ex_wf. now left.
  - right. split; [intros v [=]|]. split; discriminate.
  - exact ex_columns.
  - repeat constructor; cbn; intuition discriminate.
  - intros f If. apply sx_files_ok'. now right.
  - intros f x If. apply sx_times, in_or_app. right. now right.
  - intros f x [ <- |[]] [ <- |[]]. apply sx_third. intros t [[= <-]|[E|[E|[]]]]; [reflexivity|discriminate|discriminate].
Qed.
