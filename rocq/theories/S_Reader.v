(** Specification of merging record batches and of reading file slices. *)
From Coq Require Import Sorted.
From Verif Require Import Base Str M_Timeline M_Expr M_Config M_Reader.
Local Open Scope string_scope.

(** ** Cells and columns *)
(** The order of the values of a column: nulls first. *)
Inductive cell_lt : cell -> cell -> Prop :=
| lt_null : forall c, c <> Null -> cell_lt Null c
| lt_bool : cell_lt (VBool false) (VBool true)
| lt_int : forall a b, (a < b)%Z -> cell_lt (VInt a) (VInt b)
| lt_float : forall a b, (a < b)%Z -> cell_lt (VFloat a) (VFloat b)
| lt_text : forall a b, slt a b -> cell_lt (VText a) (VText b)
| lt_other : forall n a b, (a < b)%Z -> cell_lt (VOther n a) (VOther n b).
Definition has_type (c : cell) (t : ctype) : Prop :=
  match c, t with
  | Null, _ | VBool _, TBool | VInt _, TInt | VFloat _, TFloat | VText _, TUtf8 => True
  | VOther n _, TOther m => n = m
  | _, _ => False
  end.
(** The first column of a name. *)
Definition column_at (sch : list field) (name : string) (i : nat) : Prop :=
  (exists f, nth_error sch i = Some f /\ f_name f = name)
  /\ forall j f, (j < i)%nat -> nth_error sch j = Some f -> f_name f <> name.
Definition typed_column (sch : list field) (name : string) (t : ctype) (i : nat) : Prop :=
  column_at sch name i /\ exists f, nth_error sch i = Some f /\ f_type f = t.
(** A batch of a schema: every row has a value of the right type for every field, and nulls only where
    they are declared. *)
Definition wf_row (sch : list field) (row : list cell) : Prop :=
  Forall2 (fun f c => has_type c (f_type f) /\ (c = Null -> f_null f = true)) sch row.
Definition wf_batch (sch : list field) (b : record_batch) : Prop := rb_fields b = sch /\ Forall (wf_row sch) (rb_rows b).
Definition rows_of (batches : list record_batch) : list (list cell) := List.concat (map rb_rows batches).

(** ** The latest row of each key *)
(** The key of a row; a null counts as the empty text. *)
Definition key_at (k : nat) (row : list cell) : string := match nth k row Null with VText s => s | _ => "" end.
(** [a] is newer than [b]: a greater ordering field, or the same and a greater sequence number. *)
Definition newer (p s : nat) (a b : list cell) : Prop :=
  cell_lt (nth p b Null) (nth p a Null)
  \/ nth p b Null = nth p a Null /\ cell_lt (nth s b Null) (nth s a Null).
(** Exactly one row for every key, an input row with no newer input row of its key. *)
Definition latest_rows (k p s : nat) (rows out : list (list cell)) : Prop :=
  NoDup (map (key_at k) out)
  /\ (forall r, In r rows -> exists r', In r' out /\ key_at k r' = key_at k r)
  /\ (forall r, In r out -> In r rows /\ forall r', In r' rows -> key_at k r' = key_at k r -> ~ newer p s r' r).
(** Different rows of a key differ in the ordering field or the sequence number. *)
Definition no_ties (k p s : nat) (rows : list (list cell)) : Prop :=
  forall a b, In a rows -> In b rows -> key_at k a = key_at k b ->
    nth p a Null = nth p b Null -> nth s a Null = nth s b Null -> a = b.

(** ** What sorting and hash maps may do *)
Definition total_order {A} (cmp : A -> A -> comparison) : Prop :=
  (forall x y, cmp y x = CompOpp (cmp x y)) /\ (forall x y z, cmp x y <> Gt -> cmp y z <> Gt -> cmp x z <> Gt).
Definition sorts {A} (sort : (A -> A -> comparison) -> list A -> list A) : Prop :=
  forall cmp l, total_order cmp -> Permutation (sort cmp l) l /\ StronglySorted (fun x y => cmp x y <> Gt) (sort cmp l).
Definition visits (iter : list (string * nat) -> list (string * nat)) : Prop := forall m, Permutation (iter m) m.

(** ** Windows of commit times, compared as text *)
Definition in_window (t : nat) (start : string) (stop : option string) (row : list cell) : Prop :=
  exists c, nth t row Null = VText c /\ slt start c /\ forall e, stop = Some e -> sle c e.

(** ** What the options ask for *)
(** Records of a key are merged, keeping the latest: the strategy says so, or it is not given (or not
    recognised) and there are meta fields and an ordering field. *)
Definition merges_latest (m : options) : Prop :=
  (exists v, oget "hoodie.table.record.merge.strategy" m = Some v /\ to_ascii_lowercase v = "overwrite_with_latest")
  \/ ((forall v, oget "hoodie.table.record.merge.strategy" m = Some v -> ~ In (to_ascii_lowercase v) ["append_only"; "overwrite_with_latest"])
      /\ oget "hoodie.populate.meta.fields" m <> Some "false" /\ oget "hoodie.table.precombine.field" m <> None).
(** The columns that merging uses. *)
Definition merge_columns (m : options) (sch : list field) (p s k : nat) : Prop :=
  (exists pn pt, oget "hoodie.table.precombine.field" m = Some pn /\ typed_column sch pn pt p /\ pt <> TMap)
  /\ typed_column sch "_hoodie_commit_seqno" TUtf8 s /\ typed_column sch "_hoodie_record_key" TUtf8 k.
Definition read_start (m : options) : option string := oget "hoodie.read.file_group.start_timestamp" m.
Definition read_end (m : options) : option string := oget "hoodie.read.file_group.end_timestamp" m.
Definition in_utc (m : options) : Prop := forall v, oget "hoodie.table.timeline.timezone" m = Some v -> to_ascii_lowercase v <> "local".
(** The range of instants of a read: after the start and up to the end. *)
Definition read_range (tz : string) (m : options) : instant_range :=
  {| r_timezone := tz; r_start := read_start m; r_end := read_end m; r_start_incl := false; r_end_incl := true |}.
