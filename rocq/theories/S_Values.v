(** Specification of the records in the log files of a slice: what writers wrote, as Avro values. *)
From Verif Require Import Base Str M_Time M_FileGroup M_Listing M_Log M_Config M_Reader M_Table M_Avro M_Values S_Time S_FileGroup S_Listing S_Log S_Reader S_Avro S_History.
Local Open Scope string_scope.

(** The records of these Avro schemas keep their values (C48, C49); no field is of the type null. *)
Definition kept_records (fs : list (string * list string * avro)) (vs : list value) : Prop :=
  valid (ScRecord fs) /\ fs <> [] /\ (forall n al, ~ In (n, al, ScNull) fs)
  /\ ~ part ScRef (ScRecord fs) /\ ~ part ScLocalTimestamp (ScRecord fs) /\ lossless false (ScRecord fs) = true /\ readable (ScRecord fs) = true
  /\ Forall (conforms (ScRecord fs)) vs /\ Forall (nulls_ok (ScRecord fs)) vs.

(** A value in its binary form, for a decoder. *)
Definition decodes (datum : avro -> string -> option (value * string)) (s : avro) (v : value) (d : string) : Prop := datum s d = Some (v, "").

Section Written.
Variable parse_schema : string -> option avro.
(** the bytes that stand for a value *)
Variable stands : avro -> value -> string -> Prop.
Variable code : dtype -> nat.
Variable rank : dtype -> slot -> Z.

(** A record as a row: its values, one after another. *)
Definition row_of (dfs : list M_Avro.field) (v : value) : list cell :=
  match v with
  | AvRecord r => map (fun fe => cell_of_slot code rank (ftype (fst fe)) (meaning (snd (snd fe)))) (combine dfs r)
  | _ => []
  end.
(** The records that a block holds, all of one Arrow schema. *)
Inductive written (dfs : list M_Avro.field) (header : metadata) : wcontent -> list value -> Prop :=
| wr_command : written dfs header CCommand []
| wr_avro : forall ds text fs vs,
    In (Schema, text) header -> parse_schema text = Some (ScRecord fs) -> to_arrow_schema (ScRecord fs) = Ok dfs ->
    Forall2 (fun d v => stands (ScRecord fs) v d) ds vs -> kept_records fs vs ->
    written dfs header (CAvro ds) vs.
(** A block that a writer may write. *)
Record logged (dfs : list M_Avro.field) (w : wblock) (vs : list value) : Prop := {
  lg_version : w_version w <> V0;
  lg_header : wf_metadata (w_header w);
  lg_footer : wf_metadata (w_footer w) /\ (w_version w <> V1 -> w_footer w = []);
  lg_instant : exists t, In (InstantTime, t) (w_header w);
  lg_length : (len (put_content (w_content w)) < 2 ^ 64)%N;
  lg_records : forall ds, w_content w = CAvro ds -> (N.of_nat (List.length ds) < 2 ^ 32)%N /\ Forall (fun d => (len d < 2 ^ 32)%N) ds;
  lg_written : written dfs (w_header w) (w_content w) vs
}.
(** A log file with its blocks and their records. *)
Definition log_written (local_to_utc : ndt -> option ndt) (fetch : string -> outcome string) (range : M_Timeline.instant_range) (tz : string) (dfs : list M_Avro.field) (f : string * list (wblock * list value)) : Prop :=
  fetch (fst f) = Ok (put_log (map fst (snd f)))
  /\ forall x, In x (snd f) -> logged dfs (fst x) (snd x) /\ target_given (fst x) /\ exists b, range_says local_to_utc range tz (fst x) b.

(** The files of a file group, as [laid_out] (S_History), with the records of log files as they were written. *)
Section Layout.
Variable read_parquet : string -> outcome record_batch.
Variable bytes : string -> outcome string.
Variable format part id : string.
Variable dfs : list M_Avro.field.
Variable listed : list file_meta.
Record written_out (contents : string -> list (wblock * list value)) (g : group) : Prop := {
  wo_paths : (forall r, part <> r ++ "/") /\ (forall r, id <> "/" ++ r);
  wo_names : forall m b, base_listed format listed m b -> bf_file_id b = id -> base_file_name b = fm_name m;
  wo_bases : forall c, In c (map fst (g_bases g)) <-> exists m, base_of format id listed m c;
  wo_rows : forall m c rows, base_of format id listed m c -> In (c, rows) (g_bases g) ->
    read_parquet (file_path part (fm_name m)) = Ok {| rb_fields := map (as_field code) dfs; rb_rows := rows |};
  wo_typed : forall x r, In (x, r) (g_versions g) -> wf_row (map (as_field code) dfs) r;
  wo_distinct : forall m1 l1 m2 l2, log_listed format listed m1 l1 -> log_listed format listed m2 l2 -> lf_file_id l1 = id -> lf_file_id l2 = id ->
    lf_base_commit l1 = lf_base_commit l2 -> lf_version l1 = lf_version l2 -> lf_write_token l1 = lf_write_token l2 -> m1 = m2;
  wo_logs : forall m c, log_of format id listed m c -> bytes (file_path part (fm_name m)) = Ok (put_log (map fst (contents (fm_name m))))
    /\ forall w vs, In (w, vs) (contents (fm_name m)) -> logged dfs w vs /\ target_given w /\ exists x, at_instant w x /\ timestamp x;
  wo_blocks : forall c x r, (exists rows, In (c, x, rows) (g_blocks g) /\ In r rows)
    <-> exists m w vs v, log_of format id listed m c /\ In (w, vs) (contents (fm_name m)) /\ at_instant w x /\ In v vs /\ r = row_of dfs v;
  wo_rollbacks : forall c y x, In (c, y, x) (g_rollbacks g)
    <-> exists m w vs, log_of format id listed m c /\ In (w, vs) (contents (fm_name m)) /\ at_instant w y /\ rolls_back w x
}.
End Layout.
End Written.
