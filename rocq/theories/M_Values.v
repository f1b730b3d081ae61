(** Model of file_group/log_file/content.rs:82-111 with the Avro reader of M_Avro: the record batches of
    Avro log blocks as the merger and the reader (M_Reader) see them. *)
From Verif Require Import Base Str M_Log M_Reader M_Avro.
Local Open Scope string_scope.

Section Values.
(** A number for each Arrow type, and the rank of a value in the order of the Arrow row format (that of floats is
    the total order), for the values that M_Reader represents by their rank; integers of all widths, dates and
    times are their own rank. *)
Variable code : dtype -> nat.
Variable rank : dtype -> slot -> Z.
(** Casts between integers and floats, see M_Avro. *)
Variable float_cast : dtype -> slot -> option slot.

Definition ctype_of (d : dtype) : ctype :=
  match d with
  | DBoolean => TBool | DInt64 => TInt | DFloat64 => TFloat | DUtf8 => TUtf8
  | DDict _ _ => TMap
  | _ => TOther (code d)
  end.
Definition cell_of_slot (d : dtype) (s : slot) : cell :=
  match s with
  | SlNull => Null
  | _ =>
      match d, s with
      | DBoolean, SlBool b => VBool b
      | DInt64, SlInt z => VInt z
      | DFloat64, _ => VFloat (rank d s)
      | DUtf8, SlText t => VText t
      | _, SlInt z => VOther (code d) z
      | _, _ => VOther (code d) (rank d s)
      end
  end.
Definition as_field (f : M_Avro.field) : M_Reader.field := {| f_name := fname f; f_type := ctype_of (ftype f); f_null := fnull f |}.
(** [RecordBatch::num_rows] is the length of the columns *)
Definition num_rows (cols : list array) : nat := match cols with [] => 0 | c :: _ => array_len c end.
Definition as_batch (b : list M_Avro.field * list array) : record_batch :=
  {| rb_fields := map as_field (fst b);
     rb_rows := map (fun i => map (fun fc => cell_of_slot (ftype (fst fc)) (slot_at (snd fc) i)) (combine (fst b) (snd b))) (seq 0 (num_rows (snd b))) |}.
(** arrow_array_reader.rs:69-82 [try_new] *)
Definition check_schema (s : avro) : outcome unit := let* _ := to_arrow_schema s in let* _ := schema_lookup s in Ok tt.
(** arrow_array_reader.rs:147-186 [next_batch] *)
Definition to_batch (s : avro) (vs : list value) : outcome record_batch := let* b := read_batch float_cast s vs in Ok (as_batch b).
End Values.
