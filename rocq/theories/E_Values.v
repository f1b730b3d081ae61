(** The table of E_History with its log records in Avro, for the examples of C76. *)
From Verif Require Import Base Str M_Time M_FileGroup M_Listing M_Log M_Config M_Reader M_Table M_Avro M_Values
  S_Time S_FileGroup S_Listing S_Log S_Reader S_Config S_Avro S_History S_Values L_Reader E_Avro E_History.
Local Open Scope string_scope.

(** A decoder of Avro data with short texts and small numbers. *)
Fixpoint vx_datum (s : avro) (b : string) {struct s} : option (value * string) :=
  match s with
  | ScNull => Some (AvNull, b)
  | ScLong => match b with EmptyString => None | String c r => Some (AvLong (Z.of_nat (Nat.div2 (nat_of_ascii c))), r) end
  | ScString | ScUuid =>
      match b with
      | EmptyString => None
      | String c r =>
          let n := Nat.div2 (nat_of_ascii c) in
          if Nat.leb n (String.length r)
          then Some (match s with ScUuid => AvUuid (substring 0 n r) | _ => AvString (substring 0 n r) end, substring n (String.length r - n) r) else None
      end
  | ScUnion vs =>
      match b with
      | EmptyString => None
      | String c r =>
          let i := Nat.div2 (nat_of_ascii c) in
          match (fix pick (l : list avro) (i : nat) {struct l} : option (value * string) :=
                   match l, i with [], _ => None | s :: _, O => vx_datum s r | _ :: l, S i => pick l i end) vs i with
          | Some (v, r) => Some (AvUnion i v, r)
          | None => None
          end
      end
  | ScRecord fs =>
      match (fix all (l : list (string * list string * avro)) (b : string) {struct l} : option (list (string * value) * string) :=
               match l with
               | [] => Some ([], b)
               | (n, _, s) :: l =>
                   match vx_datum s b with
                   | Some (v, r) => match all l r with Some (vs, r) => Some ((n, v) :: vs, r) | None => None end
                   | None => None
                   end
               end) fs b with
      | Some (r, rest) => Some (AvRecord r, rest)
      | None => None
      end
  | _ => None
  end.
Definition vx_byte (n : nat) : string := String (ascii_of_nat (2 * n)) "".
Definition vx_text (s : string) : string := vx_byte (String.length s) ++ s.

Definition vx_nullable (s : avro) : avro := ScUnion [ScNull; s].
Definition vx_fields : list (string * list string * avro) :=
  [("_hoodie_commit_time", [], vx_nullable ScString); ("_hoodie_commit_seqno", [], vx_nullable ScString); ("_hoodie_record_key", [], vx_nullable ScString);
   ("ts", [], vx_nullable ScLong)].
Definition vx_dfs : list M_Avro.field :=
  [("_hoodie_commit_time", DUtf8, true); ("_hoodie_commit_seqno", DUtf8, true); ("_hoodie_record_key", DUtf8, true); ("ts", DInt64, true)].
Definition vx_parse (text : string) : option avro := if String.eqb text "{record}" then Some (ScRecord vx_fields) else None.
Definition vx_record (t s k : string) (ts : nat) : value :=
  AvRecord [("_hoodie_commit_time", AvUnion 1 (AvString t)); ("_hoodie_commit_seqno", AvUnion 1 (AvString s)); ("_hoodie_record_key", AvUnion 1 (AvString k));
            ("ts", AvUnion 1 (AvLong (Z.of_nat ts)))].
Definition vx_bytes (t s k : string) (ts : nat) : string :=
  vx_byte 1 ++ vx_text t ++ vx_byte 1 ++ vx_text s ++ vx_byte 1 ++ vx_text k ++ vx_byte 1 ++ vx_byte ts.
Definition vx_code (d : dtype) : nat := 0.
Definition vx_rank (d : dtype) (s : slot) : Z := 0.

Definition vx_a2 := vx_record hx_t2 "3" "a" 2.
Definition vx_a3 := vx_record hx_t3 "4" "a" 3.
Definition vx_b6 := vx_record hx_t6 "5" "b" 6.
Fact vx_rows : map (row_of vx_code vx_rank vx_dfs) [vx_a2; vx_a3; vx_b6] = [hx_a2; hx_a3; hx_b6] /\ map (as_field vx_code) vx_dfs = hx_sch
  /\ to_arrow_schema (ScRecord vx_fields) = Ok vx_dfs.
Proof. repeat split. Qed.
Fact vx_kept : forall l, (forall v, In v l -> In v [vx_a2; vx_a3; vx_b6]) -> kept_records vx_fields l.
Proof.
  intros l H. split; [now apply valid_b_spec|]. split; [discriminate|]. split; [intros n al [E|[E|[E|[E|[]]]]]; discriminate E|].
  assert (P : forall x, part x (ScRecord vx_fields) -> x <> ScRef /\ x <> ScLocalTimestamp).
  { intros x P. inversion P as [| | | |x' n al s fs I P']; subst; [split; discriminate|].
    destruct I as [[= <- <- <-]|[[= <- <- <-]|[[= <- <- <-]|[[= <- <- <-]|[]]]]];
      (inversion P' as [| | |x'' s' vs I P2|]; subst; [split; discriminate|]; destruct I as [ <- |[ <- |[]]]; inversion P2; subst; split; discriminate). }
  split; [intros K; destruct (P ScRef K) as [A _]; now apply A|]. split; [intros K; destruct (P ScLocalTimestamp K) as [_ A]; now apply A|]. split; [reflexivity|]. split; [reflexivity|].
  split; apply Forall_forall; intros v I; apply H in I; destruct I as [ <- |[ <- |[ <- |[]]]].
  1-3: apply cf_record; repeat (apply Forall2_cons; [split; [reflexivity|]; cbn [snd]; eapply cf_union; [reflexivity|]; constructor; unfold long_range; lia|]); constructor.
  all: apply no_record; repeat (apply Forall2_cons; [cbn [snd]; eapply no_some; [reflexivity|discriminate|apply no_other; discriminate]|]); constructor.
Qed.

Definition vx_data (t : string) (ds : list string) : wblock := {| w_version := V1; w_header := [(InstantTime, t); (Schema, "{record}")]; w_content := CAvro ds; w_footer := [] |}.
Definition vx_block2 := vx_data hx_t2 [vx_bytes hx_t2 "3" "a" 2].
Definition vx_block3 := vx_data hx_t3 [vx_bytes hx_t3 "4" "a" 3].
Definition vx_block6 := vx_data hx_t6 [vx_bytes hx_t6 "5" "b" 6].
Definition vx_contents (name : string) : list (wblock * list value) :=
  if String.eqb name (fm_name hx_log1) then [(vx_block2, [vx_a2]); (vx_block3, [vx_a3]); (hx_undo hx_t4 hx_t3, [])]
  else if String.eqb name (fm_name hx_log5) then [(vx_block6, [vx_b6])] else [].
Definition vx_logged := logged vx_parse (decodes vx_datum) vx_dfs.
Fact vx_data_ok : forall t d v, In t [hx_t1; hx_t2; hx_t3; hx_t4; hx_t5; hx_t6] -> In v [vx_a2; vx_a3; vx_b6] -> vx_datum (ScRecord vx_fields) d = Some (v, "") ->
  (len d < 2 ^ 32)%N -> (len (put_content (CAvro [d])) < 2 ^ 64)%N -> vx_logged (vx_data t [d]) [v].
Proof.
  intros t d v T V D L Lc. split; cbn [vx_data w_version w_header w_content w_footer put_content].
  - discriminate.
  - split; [repeat constructor; cbn; intuition discriminate|]. intros k x [E|[E|[]]]; injection E as <- <-; [|split; reflexivity]. repeat (destruct T as [ <- |T]; [split; reflexivity|]). destruct T.
  - split; [split; [constructor|intros k x []]|]. intros N. now elim N.
  - exists t. now left.
  - exact Lc.
  - intros ds [= <-]. split; [reflexivity|]. constructor; [exact L|constructor].
  - apply (wr_avro _ _ _ _ [d] "{record}" vx_fields [v]); [right; now left|reflexivity|reflexivity|constructor; [exact D|constructor]|]. apply vx_kept. intros x [ <- |[]]. exact V.
Qed.
Fact vx_undo_ok : vx_logged (hx_undo hx_t4 hx_t3) [].
Proof.
  split; cbn [hx_undo w_version w_header w_content w_footer put_content].
  - discriminate.
  - split; [repeat constructor; cbn; intuition discriminate|]. intros k v I. destruct I as [[= <- <-]|[[= <- <-]|[[= <- <-]|[]]]]; split; reflexivity.
  - split; [split; [constructor|intros k v []]|]. intros N. now elim N.
  - exists hx_t4. now left.
  - reflexivity.
  - discriminate.
  - constructor.
Qed.
Ltac vx_data_tac := apply vx_data_ok; [cbn; tauto|cbn; tauto|vm_compute; reflexivity|vm_compute; reflexivity|vm_compute; reflexivity].
Definition vx_store : store unit :=
  {| st_json := st_json _ hx_store; st_schema := st_schema _ hx_store; st_files := st_files _ hx_store; st_dirs := st_dirs _ hx_store; st_meta := st_meta _ hx_store;
     st_parquet := st_parquet _ hx_store;
     st_bytes := fun p => if String.eqb p (fm_name hx_log1) then Ok (put_log (map fst (vx_contents (fm_name hx_log1))))
                          else if String.eqb p (fm_name hx_log5) then Ok (put_log (map fst (vx_contents (fm_name hx_log5)))) else Err EStorage;
     st_open := st_open _ hx_store |}.
Definition vx_writes := written_out vx_parse (decodes vx_datum) vx_code vx_rank (st_parquet _ vx_store) (st_bytes _ vx_store).
Fact vx_contents1 : vx_contents (fm_name hx_log1) = [(vx_block2, [vx_a2]); (vx_block3, [vx_a3]); (hx_undo hx_t4 hx_t3, [])].
Proof. reflexivity. Qed.
Fact vx_contents5 : vx_contents (fm_name hx_log5) = [(vx_block6, [vx_b6])].
Proof. reflexivity. Qed.
Fact vx_written_out : vx_writes "parquet" "" "f" vx_dfs hx_listed vx_contents hx_group.
Proof.
  destruct hx_laid_out as [Lp Ln Lb Lr Lt Ld _ _ _]. constructor; try assumption.
  - intros m c L. apply hx_log_of in L as [[ -> _]|[ -> _]]; (split; [reflexivity|]); intros w vs I.
    + rewrite vx_contents1 in I. destruct I as [[= <- <-]|[[= <- <-]|[[= <- <-]|[]]]].
      * split; [vx_data_tac|]. split; [intros v [=]|]. exists hx_t2. split; [now left|apply hx_stamp; cbn; tauto].
      * split; [vx_data_tac|]. split; [intros v [=]|]. exists hx_t3. split; [now left|apply hx_stamp; cbn; tauto].
      * split; [exact vx_undo_ok|]. split; [intros v _ _ _; exists hx_t3; right; now left|exists hx_t4; split; [now left|apply hx_stamp; cbn; tauto]].
    + rewrite vx_contents5 in I. destruct I as [[= <- <-]|[]]. split; [vx_data_tac|]. split; [intros v [=]|]. exists hx_t6. split; [now left|apply hx_stamp; cbn; tauto].
  - intros c x r. cbn [hx_group g_blocks]. split.
    + intros [rows [I Ir]]. destruct I as [[= <- <- <-]|[[= <- <- <-]|[[= <- <- <-]|[]]]]; destruct Ir as [ <- |[]].
      * exists hx_log1, vx_block2, [vx_a2], vx_a2. split; [apply hx_log_is; now left|]. rewrite vx_contents1. split; [now left|]. split; [now left|]. split; [now left|reflexivity].
      * exists hx_log1, vx_block3, [vx_a3], vx_a3. split; [apply hx_log_is; now left|]. rewrite vx_contents1. split; [right; now left|]. split; [now left|]. split; [now left|reflexivity].
      * exists hx_log5, vx_block6, [vx_b6], vx_b6. split; [apply hx_log_is; right; now left|]. rewrite vx_contents5. split; [now left|]. split; [now left|]. split; [now left|reflexivity].
    + intros [m [w [vs [v [L [I [A [R ->]]]]]]]]. apply hx_log_of in L as [[ -> -> ]|[ -> -> ]].
      * rewrite vx_contents1 in I. destruct I as [[= <- <-]|[[= <- <-]|[[= <- <-]|[]]]].
        -- destruct A as [[= <-]|[A|[]]]; [|discriminate A]. destruct R as [ <- |[]]. exists [hx_a2]. cbn. auto.
        -- destruct A as [[= <-]|[A|[]]]; [|discriminate A]. destruct R as [ <- |[]]. exists [hx_a3]. cbn. auto.
        -- destruct R.
      * rewrite vx_contents5 in I. destruct I as [[= <- <-]|[]]. destruct A as [[= <-]|[A|[]]]; [|discriminate A]. destruct R as [ <- |[]]. exists [hx_b6]. cbn. auto.
  - intros c y x. cbn [hx_group g_rollbacks In]. split.
    + intros [[= <- <- <-]|[]]. exists hx_log1, (hx_undo hx_t4 hx_t3), []. rewrite vx_contents1. split; [apply hx_log_is; now left|]. split; [right; right; now left|]. split; [now left|]. split; [reflexivity|]. split; [right; now left|]. exists "0". split; [right; right; now left|reflexivity].
    + intros [m [w [vs [L [I [A [R1 [R2 _]]]]]]]]. left. apply hx_log_of in L as [[ -> -> ]|[ -> -> ]].
      * rewrite vx_contents1 in I. destruct I as [[= <- <-]|[[= <- <-]|[[= <- <-]|[]]]]; try discriminate R1.
        destruct A as [[= <-]|[A|[A|[]]]]; try discriminate A. destruct R2 as [R2|[[= <-]|[R2|[]]]]; try discriminate R2. reflexivity.
      * rewrite vx_contents5 in I. destruct I as [[= <- <-]|[]]. discriminate R1.
Qed.

(** Queries of the table. *)
Definition vx_cast : dtype -> slot -> option slot := fun _ _ => None.
Definition vx_reads (t : string) (rows : list (list cell)) : Prop := exists c',
  read_snapshot_as_of unit string (fun _ s => Some s) (fun a b => Some (scmp a b)) avro value vx_parse vx_datum check_schema (to_batch vx_code vx_rank vx_cast) (fun _ => None)
    hx_local vx_store hx_table t [] [] c' (Ok [hx_batch rows]).
Fact vx_read2 : vx_reads hx_t2 [hx_a2; hx_b1]. Proof. hx_read. Qed.
Fact vx_read4 : vx_reads hx_t4 [hx_a2; hx_b1]. Proof. hx_read. Qed.
Fact vx_read6 : vx_reads hx_t6 [hx_b6; hx_a2]. Proof. hx_read. Qed.

(** The slice of the first log file. *)
Definition vx_slice : file_slice :=
  {| fs_base := {| bf_file_id := "f"; bf_write_token := "0-0-0"; bf_commit := hx_t1; bf_ext := "parquet"; bf_meta := None |};
     fs_logs := [{| lf_file_id := "f"; lf_base_commit := hx_t1; lf_ext := "log"; lf_version := "1"; lf_write_token := "0-0-0"; lf_meta := None |}];
     fs_partition := "" |}.
Definition vx_options : options := [("hoodie.read.file_group.end_timestamp", hx_t4); ("hoodie.table.precombine.field", "ts")].
Fact vx_log_ok : log_written vx_parse (decodes vx_datum) hx_local (st_bytes _ vx_store) (read_range "utc" vx_options) "utc" vx_dfs (fm_name hx_log1, vx_contents (fm_name hx_log1)).
Proof.
  split; [reflexivity|]. intros x I. cbn [snd] in I. destruct (wo_logs _ _ _ _ _ _ _ _ _ _ _ _ _ vx_written_out hx_log1 hx_t1) as [_ W]; [apply hx_log_is; now left|].
  destruct x as [w vs]. destruct (W w vs I) as [A [B _]]. split; [exact A|]. split; [exact B|]. rewrite vx_contents1 in I.
  destruct I as [[= <- <-]|[[= <- <-]|[[= <- <-]|[]]]]; exists true; eexists; (split; [now left|vm_compute; reflexivity]).
Qed.

(** A record with a UUID, in a log file of its own. *)
Definition vu_fields : list (string * list string * avro) := (vx_fields ++ [("u", [], vx_nullable ScUuid)])%list.
Definition vu_parse (text : string) : option avro := if String.eqb text "{record}" then Some (ScRecord vu_fields) else None.
Definition vu_uuid : string := "0123456789abcdef".
Definition vu_record : value :=
  AvRecord [("_hoodie_commit_time", AvUnion 1 (AvString hx_t2)); ("_hoodie_commit_seqno", AvUnion 1 (AvString "3")); ("_hoodie_record_key", AvUnion 1 (AvString "c"));
            ("ts", AvUnion 1 (AvLong 2)); ("u", AvUnion 1 (AvUuid vu_uuid))].
Definition vu_datum : string := vx_bytes hx_t2 "3" "c" 2 ++ vx_byte 1 ++ vx_text vu_uuid.
Definition vu_block : wblock := vx_data hx_t2 [vu_datum].
Definition vu_base : record_batch := {| rb_fields := (hx_sch ++ [{| f_name := "u"; f_type := TOther 0; f_null := true |}])%list; rb_rows := [(hx_a1 ++ [VOther 0 7])%list] |}.
Definition vu_fetch (p : string) : outcome string := if String.eqb p (fm_name hx_log1) then Ok (put_log [vu_block]) else Err EStorage.
Definition vu_out : record_batch := {| rb_fields := rb_fields vu_base; rb_rows := [[VText hx_t2; VText "3"; VText "c"; VInt 2; Null]; (hx_a1 ++ [VOther 0 7])%list] |}.
Definition vu_read : outcome record_batch :=
  read_file_slice (@isort _) (fun m => m) (fun _ => Ok vu_base) avro value vu_parse vx_datum check_schema (to_batch vx_code vx_rank vx_cast) (fun _ => None) hx_local vu_fetch vx_options vx_slice.
Fact vu_reads : vu_read = Ok vu_out.
Proof. vm_compute. reflexivity. Qed.
