(** Model of crates/core/src/avro_to_arrow/{schema,arrow_array_reader}.rs: Avro log blocks to Arrow columns. *)
From Verif Require Import Base Str M_Utf8.
Local Open Scope string_scope.

(** ** Avro schemas and values, as [apache_avro] 0.17 has them *)
(** [apache_avro::Schema].  A record field is its name, its aliases and its schema; documentation,
    namespaces, defaults and attributes are left out (they only become metadata of Arrow fields).
    A decimal is stored as bytes, or as a fixed of the given size. *)
Inductive avro :=
| ScNull | ScBoolean | ScInt | ScLong | ScFloat | ScDouble | ScBytes | ScString
| ScArray (items : avro) | ScMap (values : avro) | ScUnion (variants : list avro)
| ScRecord (fields : list (string * list string * avro))
| ScEnum (symbols : list string) | ScFixed (size : nat) | ScDecimal (precision scale : nat) (fixed : option nat) | ScBigDecimal | ScUuid
| ScDate | ScTimeMillis | ScTimeMicros | ScTimestampMillis | ScTimestampMicros | ScTimestampNanos
| ScLocalTimestamp | ScDuration | ScRef.
(** [apache_avro::types::Value]; floats are their bits *)
Inductive value :=
| AvNull | AvBoolean (b : bool) | AvInt (z : Z) | AvLong (z : Z) | AvFloat (bits : N) | AvDouble (bits : N)
| AvBytes (s : string) | AvString (s : string) | AvFixed (n : nat) (s : string) | AvEnum (i : nat) (s : string)
| AvUnion (i : nat) (v : value) | AvArray (vs : list value) | AvMap (vs : list (string * value))
| AvRecord (fs : list (string * value))
| AvDate (z : Z) | AvDecimal (s : string) | AvBigDecimal (s : string) | AvTimeMillis (z : Z) | AvTimeMicros (z : Z)
| AvTimestampMillis (z : Z) | AvTimestampMicros (z : Z) | AvTimestampNanos (z : Z) | AvLocalTimestamp (z : Z)
| AvDuration (s : string) | AvUuid (s : string).
Definition row := list (string * value).

(** ** Arrow types *)
Inductive dtype :=
| DNull | DBoolean | DInt32 | DInt64 | DFloat32 | DFloat64 | DBinary | DLargeBinary | DUtf8
| DFixed (size : nat) | DDecimal (precision scale : nat)
| DDate32 | DTime32Milli | DTime64Micro | DTimestampMilli | DTimestampMicro | DTimestampNano | DDuration
| DList (name : string) (item : dtype) (nullable : bool)
| DDict (key val : dtype)
| DStruct (fields : list (string * dtype * bool))
| DUnion (fields : list (string * dtype * bool)).
Definition field : Type := string * dtype * bool.
Definition fname (f : field) : string := fst (fst f).
Definition ftype (f : field) : dtype := snd (fst f).
Definition fnull (f : field) : bool := snd f.

Definition is_null_schema (s : avro) : bool := match s with ScNull => true | _ => false end.
(** [UnionSchema::find_schema_with_known_schemata(&Value::Null)]: only a null variant resolves a null *)
Definition has_null (variants : list avro) : bool := existsb is_null_schema variants.
(** [RecordField::is_nullable] *)
Definition is_nullable (s : avro) : bool := match s with ScUnion vs => has_null vs | _ => false end.

(** schema.rs:142-209; names of default fields (only fields of unions have them) *)
Definition default_field_name (d : dtype) : string :=
  match d with
  | DNull => "null" | DBoolean => "bit" | DInt32 => "int" | DInt64 => "bigint" | DFloat32 => "float4" | DFloat64 => "float8"
  | DBinary => "varbinary" | DLargeBinary => "largevarbinary" | DUtf8 => "varchar" | DFixed _ => "fixedsizebinary"
  | DDecimal _ _ => "decimal" | DDate32 => "dateday" | DTime32Milli => "timemilli" | DTime64Micro => "timemicro"
  | DTimestampMilli => "timestampmilli" | DTimestampMicro => "timestampmicro" | DTimestampNano => "timestampnano"
  | DDuration => "duration" | DList _ _ _ => "list" | DDict _ _ => "map" | DStruct _ => "struct" | DUnion _ => "union"
  end.

(** schema.rs:56-139 [schema_to_field_with_props]: the type and the nullability of the field, which only a union
    with null of two variants changes *)
Fixpoint to_type (s : avro) (nullable : bool) {struct s} : outcome (dtype * bool) :=
  match s with
  | ScRef | ScLocalTimestamp => Panic
  | ScNull => Ok (DNull, nullable)
  | ScBoolean => Ok (DBoolean, nullable)
  | ScInt => Ok (DInt32, nullable)
  | ScLong => Ok (DInt64, nullable)
  | ScFloat => Ok (DFloat32, nullable)
  | ScDouble => Ok (DFloat64, nullable)
  | ScBytes => Ok (DBinary, nullable)
  | ScString => Ok (DUtf8, nullable)
  | ScArray items => let* (d, n) := to_type items false in Ok (DList "element" d n, nullable)
  | ScMap values => let* (d, _) := to_type values false in Ok (DDict DUtf8 d, nullable)
  | ScUnion vs =>
      if has_null vs && Nat.eqb (List.length vs) 2 then
        (fix first (l : list avro) : outcome (dtype * bool) :=
           match l with
           | [] => Err EAvro
           | s :: r => if is_null_schema s then first r else let* (d, _) := to_type s (has_null vs) in Ok (d, true)
           end) vs
      else
        let* fs := (fix all (l : list avro) : outcome (list field) :=
           match l with
           | [] => Ok []
           | s :: r => let* (d, n) := to_type s (has_null vs) in let* fs := all r in Ok ((default_field_name d, d, n) :: fs)
           end) vs in
        Ok (DUnion fs, nullable)
  | ScRecord fields =>
      let* fs := (fix all (l : list (string * list string * avro)) : outcome (list field) :=
         match l with
         | [] => Ok []
         | (name, _, s) :: r => let* (d, n) := to_type s false in let* fs := all r in Ok ((name, d, n) :: fs)
         end) fields in
      Ok (DStruct fs, nullable)
  | ScEnum _ => Ok (DUtf8, nullable)
  | ScFixed size => Ok (DFixed size, nullable)
  | ScDecimal p q _ => Ok (DDecimal p q, nullable)
  | ScBigDecimal => Ok (DLargeBinary, nullable)
  | ScUuid => Ok (DFixed 16, nullable)
  | ScDate => Ok (DDate32, nullable)
  | ScTimeMillis => Ok (DTime32Milli, nullable)
  | ScTimeMicros => Ok (DTime64Micro, nullable)
  | ScTimestampMillis => Ok (DTimestampMilli, nullable)
  | ScTimestampMicros => Ok (DTimestampMicro, nullable)
  | ScTimestampNanos => Ok (DTimestampNano, nullable)
  | ScDuration => Ok (DDuration, nullable)
  end.
(** schema.rs:28-46 [to_arrow_schema] *)
Definition to_arrow_schema (s : avro) : outcome (list field) :=
  match s with
  | ScRecord fields =>
      mapM (fun f => let* (d, n) := to_type (snd f) (is_nullable (snd f)) in Ok (fst (fst f), d, n)) fields
  | _ => let* (d, n) := to_type s false in Ok [("", d, n)]
  end.

(** ** The positions of fields, arrow_array_reader.rs:84-144 *)
(** A [BTreeMap<String, usize>] that is only looked up: the newest entry first. *)
Definition positions := list (string * nat).
Fixpoint pos_get (name : string) (m : positions) : option nat :=
  match m with
  | [] => None
  | (k, i) :: r => if String.eqb k name then Some i else pos_get name r
  end.
(** [RecordSchema::lookup]: filled by the parser with the name and then the aliases of every field *)
Fixpoint record_lookup (pos : nat) (fields : list (string * list string * avro)) (m : positions) : positions :=
  match fields with
  | [] => m
  | (name, aliases, _) :: r => record_lookup (S pos) r (fold_left (fun m a => (a, pos) :: m) aliases ((name, pos) :: m))
  end.
(** arrow_array_reader.rs:100-144 [child_schema_lookup]; the entries of a record's own map are inserted
    under the parent's name (in an order that does not matter: its keys are distinct) *)
Fixpoint child_lookup (parent : string) (s : avro) (m : positions) {struct s} : positions :=
  match s with
  | ScUnion vs =>
      if has_null vs && Nat.eqb (List.length vs) 2 then
        (fix first (l : list avro) : positions :=
           match l with
           | [] => m
           | s :: r => if is_null_schema s then first r else child_lookup parent s m
           end) vs
      else m
  | ScRecord fields =>
      let m := (map (fun e => ((parent ++ "." ++ fst e)%string, snd e)) (record_lookup 0 fields []) ++ m)%list in
      (fix all (l : list (string * list string * avro)) (m : positions) : positions :=
         match l with
         | [] => m
         | (name, _, s) :: r => all r (child_lookup (parent ++ "." ++ name) s m)
         end) fields m
  | ScArray items => child_lookup (parent ++ ".element") items m
  | _ => m
  end.
(** arrow_array_reader.rs:84-98 [schema_lookup] *)
Definition schema_lookup (s : avro) : outcome positions :=
  match s with
  | ScRecord fields => Ok (fold_left (fun m f => child_lookup (fst (fst f)) (snd f) m) fields (record_lookup 0 fields []))
  | _ => Err ESchema
  end.

(** ** Arrow arrays *)
(** What a slot of an array holds. *)
Inductive slot :=
| SlNull | SlBool (b : bool) | SlInt (z : Z) | SlF32 (bits : N) | SlF64 (bits : N) | SlText (s : string) | SlBytes (s : string)
| SlList (l : list slot) | SlStruct (fs : list (string * slot)).
Definition is_null_slot (s : slot) : bool := match s with SlNull => true | _ => false end.
(** Arrays as they are laid out: a flat array has a slot per row ([SlNull] where the validity bit is unset);
    a list array has offsets into its child; a struct array has children of its length. *)
Inductive array :=
| ArNull (len : nat)
| ArFlat (d : dtype) (slots : list slot)
| ArList (name : string) (nullable : bool) (valid : list bool) (offsets : list nat) (child : array)
| ArStruct (fields : list field) (valid : list bool) (children : list array).
Definition array_len (a : array) : nat :=
  match a with ArNull n => n | ArFlat _ l => List.length l | ArList _ _ v _ _ => List.length v | ArStruct _ v _ => List.length v end.
Fixpoint array_type (a : array) : dtype :=
  match a with
  | ArNull _ => DNull
  | ArFlat d _ => d
  | ArList name nullable _ _ c => DList name (array_type c) nullable
  | ArStruct fields _ _ => DStruct fields
  end.
(** the validity bits; a null array has none *)
Definition array_valid (a : array) : list bool :=
  match a with
  | ArNull n => repeat true n
  | ArFlat _ l => map (fun s => negb (is_null_slot s)) l
  | ArList _ _ v _ _ => v
  | ArStruct _ v _ => v
  end.
Definition null_count (a : array) : nat := List.length (filter negb (array_valid a)).

(** Equality of types. *)
Fixpoint dtype_eqb (a b : dtype) {struct a} : bool :=
  let fields_eqb := fix fields_eqb (l m : list field) : bool :=
    match l, m with
    | [], [] => true
    | (n, d, u) :: l, (n', d', u') :: m => String.eqb n n' && dtype_eqb d d' && Bool.eqb u u' && fields_eqb l m
    | _, _ => false
    end in
  match a, b with
  | DNull, DNull | DBoolean, DBoolean | DInt32, DInt32 | DInt64, DInt64 | DFloat32, DFloat32 | DFloat64, DFloat64
  | DBinary, DBinary | DLargeBinary, DLargeBinary | DUtf8, DUtf8 | DDate32, DDate32 | DTime32Milli, DTime32Milli
  | DTime64Micro, DTime64Micro | DTimestampMilli, DTimestampMilli | DTimestampMicro, DTimestampMicro
  | DTimestampNano, DTimestampNano | DDuration, DDuration => true
  | DFixed n, DFixed m => Nat.eqb n m
  | DDecimal p q, DDecimal p' q' => Nat.eqb p p' && Nat.eqb q q'
  | DList n d u, DList n' d' u' => String.eqb n n' && dtype_eqb d d' && Bool.eqb u u'
  | DDict k v, DDict k' v' => dtype_eqb k k' && dtype_eqb v v'
  | DStruct l, DStruct m => fields_eqb l m
  | DUnion l, DUnion m => fields_eqb l m
  | _, _ => false
  end.

(** [ArrayDataBuilder::build] of a struct array: the children have the types of the fields and at least the
    length, and a child that is declared without nulls has none where the struct is not null *)
Definition struct_ok (fields : list field) (valid : list bool) (children : list array) : bool :=
  Nat.eqb (List.length fields) (List.length children) &&
  forallb (fun fc => dtype_eqb (array_type (snd fc)) (ftype (fst fc)) && Nat.leb (List.length valid) (array_len (snd fc))
     && (fnull (fst fc) || forallb (fun vv => implb (fst vv) (snd vv)) (combine valid (array_valid (snd fc)))))
    (combine fields children).
(** ... of a list array: the last offset is within the child, and a child declared without nulls has none *)
Definition list_ok (item : dtype) (nullable : bool) (offsets : list nat) (child : array) : bool :=
  dtype_eqb (array_type child) item && Nat.leb (last offsets 0) (array_len child) && (nullable || Nat.eqb (null_count child) 0).

(** ** Values of columns, arrow_array_reader.rs:851-970 *)
(** arrow_array_reader.rs:938-948 [maybe_resolve_union]: one level *)
Definition unwrap (v : value) : value := match v with AvUnion _ b => b | _ => v end.

Section Reader.
(** [num_traits::NumCast] between integers and floats or different floats. *)
Variable float_cast : dtype -> slot -> option slot.

(** the integer types of Arrow as their ranges *)
Definition fits (d : dtype) (z : Z) : option bool :=
  match d with
  | DInt32 | DDate32 | DTime32Milli => Some ((-2147483648 <=? z)%Z && (z <=? 2147483647)%Z)
  | DInt64 | DTime64Micro | DTimestampMilli | DTimestampMicro | DTimestampNano =>
      Some ((-9223372036854775808 <=? z)%Z && (z <=? 9223372036854775807)%Z)
  | _ => None
  end.
(** [NumCast::from] *)
Definition num_cast (d : dtype) (n : slot) : option slot :=
  match n, d with
  | SlInt z, _ => match fits d z with Some b => if b then Some n else None | None => float_cast d n end
  | SlF32 _, DFloat32 => Some n
  | SlF64 _, DFloat64 => Some n
  | _, _ => float_cast d n
  end.
Definition or_null (o : option slot) : slot := match o with Some s => s | None => SlNull end.
(** arrow_array_reader.rs:950-970 [Resolver::resolve] *)
Definition resolve (d : dtype) (v : value) : outcome (option slot) :=
  match unwrap v with
  | AvInt i | AvTimeMillis i | AvDate i => Ok (num_cast d (SlInt i))
  | AvLong l | AvTimeMicros l | AvTimestampMillis l | AvTimestampMicros l => Ok (num_cast d (SlInt l))
  | AvFloat f => Ok (num_cast d (SlF32 f))
  | AvDouble f => Ok (num_cast d (SlF64 f))
  | AvNull => Ok None
  | _ => Panic
  end.
(** arrow_array_reader.rs:854-866 [resolve_string] *)
Definition resolve_string (v : value) : outcome (option slot) :=
  match unwrap v with
  | AvString s => Ok (Some (SlText s))
  | AvBytes s => if utf8_valid s then Ok (Some (SlText s)) else Err EArrow
  | AvEnum _ s => Ok (Some (SlText s))
  | AvNull => Ok None
  | _ => Err EArrow
  end.
(** arrow_array_reader.rs:868-881 [resolve_u8]; [as i32] keeps the low 32 bits *)
Definition low32 (z : Z) : Z := ((z + 2147483648) mod 4294967296 - 2147483648)%Z.
Definition resolve_u8 (v : value) : option ascii :=
  let byte n := if (0 <=? n)%Z && (n <=? 255)%Z then Some (ascii_of_N (Z.to_N n)) else None in
  match v with
  | AvInt n => byte n
  | AvLong n => byte (low32 n)
  | _ => None
  end.
Fixpoint bytes_of (l : list value) : option string :=
  match l with
  | [] => Some ""
  | v :: r => match resolve_u8 v, bytes_of r with Some c, Some s => Some (String c s) | _, _ => None end
  end.
(** arrow_array_reader.rs:883-902 [resolve_bytes] *)
Definition resolve_bytes (v : value) : option slot :=
  match unwrap v with
  | AvBytes s => Some (SlBytes s)
  | AvString s => Some (SlBytes s)
  | AvArray items => option_map SlBytes (bytes_of items)
  | _ => None
  end.
(** arrow_array_reader.rs:904-916 [resolve_fixed] *)
Definition resolve_fixed (v : value) (size : nat) : option slot :=
  match unwrap v with
  | AvFixed n s => if Nat.eqb n size then Some (SlBytes s) else None
  | _ => None
  end.
(** arrow_array_reader.rs:918-928 [resolve_boolean] *)
Definition resolve_boolean (v : value) : option slot :=
  match unwrap v with AvBoolean b => Some (SlBool b) | _ => None end.
(** [FixedSizeBinaryArray::try_from_sparse_iter_with_size]: every value has the size *)
Definition sized (size : nat) (s : slot) : bool :=
  match s with SlBytes b => Nat.eqb (String.length b) size | _ => true end.

(** ** Lists, arrow_array_reader.rs:425-451 *)
Definition list_row_len (v : value) : nat :=
  match unwrap v with AvArray a => List.length a | AvNull => 0 | _ => 1 end.
Definition list_row_valid (v : value) : bool := match unwrap v with AvArray _ => true | _ => false end.
(** the offsets ([i32]: more than 2^31 items in a batch are not modelled) *)
Fixpoint list_offsets (cur : nat) (rows : list value) : list nat :=
  cur :: match rows with [] => [] | v :: r => list_offsets (cur + list_row_len v) r end.
(** arrow_array_reader.rs:454-481: the bits of a boolean list; unset value bits are false, and validity bits
    are set unless unset.  The rows are not unwrapped here. *)
Definition bool_item (v : value) : slot := match v with AvBoolean b => SlBool b | _ => SlNull end.
Definition bool_items (len : nat) (rows : list value) : list slot :=
  let seen := flat_map (fun v => match v with AvArray vs => map bool_item vs | _ => [] end) rows in
  (seen ++ repeat (SlBool false) (len - List.length seen))%list.
(** arrow_array_reader.rs:776-799 [read_primitive_list_values] *)
Definition primitive_items (d : dtype) (rows : list value) : outcome (list slot) :=
  let* ls := mapM (fun v => match unwrap v with
                            | AvArray vs => let* os := mapM (resolve d) vs in Ok (map or_null os)
                            | w => let* o := resolve d w in Ok (match o with Some s => [s] | None => [] end)
                            end) rows in
  Ok (List.concat ls).
(** arrow_array_reader.rs:832-849 [flatten_string_values]; [.ok().flatten()] *)
Definition string_or_null (v : value) : slot := match resolve_string v with Ok (Some s) => s | _ => SlNull end.
Definition string_items (rows : list value) : list slot :=
  flat_map (fun v => match unwrap v with
                     | AvArray vs => map string_or_null vs
                     | AvNull => []
                     | w => [string_or_null w]
                     end) rows.
(** arrow_array_reader.rs:813-826 [flatten_values] *)
Definition flatten_values (rows : list value) : list value :=
  flat_map (fun v => match unwrap v with AvArray vs => vs | w => [w] end) rows.
(** arrow_array_reader.rs:538-565: the records of the lists, with their validity *)
Definition null_struct : row := [("null", AvNull)].
Definition struct_items (rows : list value) : outcome (list (bool * row)) :=
  let* ls := mapM (fun v => match unwrap v with
                            | AvArray vs => mapM (fun w => match unwrap w with
                                                           | AvRecord r => Ok (true, r)
                                                           | AvNull => Ok (false, null_struct)
                                                           | _ => Panic
                                                           end) vs
                            | _ => Ok [(false, null_struct)]
                            end) rows in
  Ok (List.concat ls).
(** arrow_array_reader.rs:733-750: the records of a struct column *)
Definition struct_row (o : option value) : outcome (bool * row) :=
  match option_map unwrap o with
  | Some (AvRecord r) => Ok (true, r)
  | None | Some AvNull => Ok (false, [])
  | _ => Panic
  end.

Section Columns.
Variable lookup : positions.
(** arrow_array_reader.rs:801-806 [field_lookup] *)
Definition field_lookup (name : string) (r : row) : option value :=
  match pos_get name lookup with Some i => option_map snd (nth_error r i) | None => None end.
Definition opt_slot (f : value -> option slot) (o : option value) : slot := match o with Some v => or_null (f v) | None => SlNull end.
(** arrow_array_reader.rs:613-617 *)
Definition sub_path (parent name : string) : string := if String.eqb parent "" then name else parent ++ "." ++ name.

(** arrow_array_reader.rs:602-773 [build_struct_array], one field, and 425-592 [build_nested_list_array];
    [items] is the child of the list *)
Fixpoint column (d : dtype) (path : string) (rows : list row) {struct d} : outcome array :=
  let primitive := let* l := mapM (fun r => match field_lookup path r with Some v => resolve d v | None => Ok None end) rows in
                   Ok (ArFlat d (map or_null l)) in
  match d with
  | DNull => Ok (ArNull (List.length rows))
  | DBoolean => Ok (ArFlat d (map (fun r => opt_slot resolve_boolean (field_lookup path r)) rows))
  | DInt32 | DInt64 | DFloat32 | DFloat64 | DDate32 | DTime32Milli | DTime64Micro
  | DTimestampMilli | DTimestampMicro | DTimestampNano => primitive
  | DUtf8 =>
      let* l := mapM (fun r => match field_lookup path r with Some v => resolve_string v | None => Ok None end) rows in
      Ok (ArFlat d (map or_null l))
  (* a [BinaryArray] for both *)
  | DBinary | DLargeBinary => Ok (ArFlat DBinary (map (fun r => opt_slot resolve_bytes (field_lookup path r)) rows))
  | DFixed size =>
      let l := map (fun r => opt_slot (fun v => resolve_fixed v size) (field_lookup path r)) rows in
      if forallb (sized size) l then Ok (ArFlat d l) else Err EArrow
  (* 706-708 and 232-276: the key type is [Utf8] (schema.rs:85-89), which is not supported *)
  | DList _ (DDict _ _) _ => Err EArrow
  | DList name item nullable =>
      let vals := map (fun r => match field_lookup path r with Some v => v | None => AvNull end) rows in
      let* child := items item name path vals in
      let offsets := list_offsets 0 vals in
      if list_ok item nullable offsets child then Ok (ArList name nullable (map list_row_valid vals) offsets child) else Panic
  (* 405-421: so here *)
  | DDict _ _ => Err EArrow
  | DStruct fields =>
      let* subs := mapM (fun r => struct_row (field_lookup path r)) rows in
      let* cols := (fix all (l : list field) : outcome (list array) :=
         match l with
         | [] => Ok []
         | (n, d, _) :: r => let* a := column d (sub_path path n) (map snd subs) in let* rest := all r in Ok (a :: rest)
         end) fields in
      if struct_ok fields (map fst subs) cols then Ok (ArStruct fields (map fst subs) cols) else Err EArrow
  | _ => Err EArrow
  end
with items (d : dtype) (name path : string) (rows : list value) {struct d} : outcome array :=
  match d with
  | DNull => Ok (ArNull (last (list_offsets 0 rows) 0))
  | DBoolean => Ok (ArFlat d (bool_items (last (list_offsets 0 rows) 0) rows))
  | DInt32 | DInt64 | DFloat32 | DFloat64 => let* l := primitive_items d rows in Ok (ArFlat d l)
  | DUtf8 => Ok (ArFlat d (string_items rows))
  | DList name' item nullable =>
      let vals := flatten_values rows in
      let* child := items item name' path vals in
      let offsets := list_offsets 0 vals in
      if list_ok item nullable offsets child then Ok (ArList name' nullable (map list_row_valid vals) offsets child) else Panic
  | DStruct fields =>
      let* subs := struct_items rows in
      let* cols := (fix all (l : list field) : outcome (list array) :=
         match l with
         | [] => Ok []
         | (n, d, _) :: r => let* a := column d (sub_path (path ++ "." ++ name) n) (map snd subs) in let* rest := all r in Ok (a :: rest)
         end) fields in
      if struct_ok fields (map fst subs) cols then Ok (ArStruct fields (map fst subs) cols) else Panic
  | _ => Err EArrow
  end.
End Columns.

(** [RecordBatch::try_new] *)
Definition new_batch (fields : list field) (cols : list array) : outcome (list field * list array) :=
  match cols with
  | [] => Err EArrow
  | c :: _ =>
      if Nat.eqb (List.length fields) (List.length cols)
         && forallb (fun fc => (fnull (fst fc) || Nat.eqb (null_count (snd fc)) 0) && Nat.eqb (array_len (snd fc)) (array_len c)
                               && dtype_eqb (array_type (snd fc)) (ftype (fst fc))) (combine fields cols)
      then Ok (fields, cols) else Err EArrow
  end.
(** arrow_array_reader.rs:147-185 [next_batch], on the values taken (at least one), without projection
    (content.rs:105); try_new is 69-82 *)
Definition to_rows (vs : list value) : outcome (list row) :=
  mapM (fun v => match v with AvRecord r => Ok r | _ => Err EArrow end) vs.
Definition read_batch (s : avro) (vs : list value) : outcome (list field * list array) :=
  let* fields := to_arrow_schema s in
  let* lookup := schema_lookup s in
  let* rows := to_rows vs in
  let* cols := mapM (fun f => column lookup (ftype f) (sub_path "" (fname f)) rows) fields in
  new_batch fields cols.
End Reader.

(** Reading an array: the slot of a row ([SlNull] where the validity bit is unset; otherwise the slots between
    the offsets, or the children at the row). *)
Fixpoint slot_at (a : array) (i : nat) {struct a} : slot :=
  match a with
  | ArNull _ => SlNull
  | ArFlat _ l => nth i l SlNull
  | ArList _ _ valid offsets child =>
      if nth i valid false then SlList (map (slot_at child) (seq (nth i offsets 0) (nth (S i) offsets 0 - nth i offsets 0))) else SlNull
  | ArStruct fields valid children =>
      if nth i valid false
      then SlStruct ((fix all (l : list array) (fs : list field) : list (string * slot) :=
                        match l, fs with
                        | c :: l, f :: fs => (fname f, slot_at c i) :: all l fs
                        | _, _ => []
                        end) children fields)
      else SlNull
  end.
