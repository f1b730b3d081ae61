(** Specification of option precedence, properties files and the accepted configurations. *)
From Verif Require Import Base Str M_Utf8 M_Config.
Local Open Scope string_scope.

(** A map has one value per key; its iteration visits every entry once, in any order. *)
Definition one_per_key (m : options) : Prop := NoDup (map fst m).
Definition visits_all (iter : options -> list (string * string)) : Prop := forall m, Permutation (iter m) m.

(** The first value given. *)
Fixpoint first_given (l : list (option string)) : option string :=
  match l with
  | [] => None
  | Some v :: _ => Some v
  | None :: r => first_given r
  end.
Definition when (b : bool) (o : option string) : option string := if b then o else None.
(** The first cloud variable of the environment with this name in lower case. *)
Fixpoint env_value (env : list (string * string)) (k : string) : option string :=
  match env with
  | [] => None
  | (n, v) :: r =>
      if (starts_with "AWS_" n || starts_with "AZURE_" n || starts_with "GOOGLE_" n) && String.eqb (to_ascii_lowercase n) k
      then Some v else env_value r k
  end.

(** ** Properties files *)
Definition spaces (w : string) : Prop := forall c, has_char c w = true -> c = " "%char \/ c = "009"%char.
Definition ascii_text (c : ascii) : Prop := (N_of_ascii c < 128)%N.
(** A key or value that survives trimming. *)
Definition trimmed (s : string) : Prop := trim s = s.
Definition clean_key (k : string) : Prop :=
  k <> "" /\ trimmed k /\ starts_with "#" k = false /\ has_char "=" k = false /\ has_char "010" k = false /\ has_char "013" k = false.
Definition clean_value (v : string) : Prop := trimmed v /\ has_char "010" v = false /\ has_char "013" v = false.

(** A line of a properties file, and the pair it stands for. *)
Inductive props_line : string -> option (string * string) -> Prop :=
| pl_blank : forall w, spaces w -> props_line w None
| pl_comment : forall w text, spaces w -> has_char "010" text = false -> has_char "013" text = false -> props_line (w ++ "#" ++ text) None
| pl_pair : forall w1 k w2 w3 v w4, spaces w1 -> spaces w2 -> spaces w3 -> spaces w4 -> clean_key k -> clean_value v ->
    props_line (w1 ++ k ++ w2 ++ "=" ++ w3 ++ v ++ w4) (Some (k, v)).
(** A file: lines that end with a line feed, possibly after a carriage return; the last one may have
    no end. *)
Inductive props_text : string -> list (string * string) -> Prop :=
| pt_nil : props_text "" []
| pt_last : forall l p, props_line l p -> utf8_valid l = true ->
    props_text l (match p with Some kv => [kv] | None => [] end)
| pt_line : forall l p cr rest kvs, props_line l p -> utf8_valid l = true -> cr = "" \/ cr = String "013" "" -> props_text rest kvs ->
    props_text (l ++ cr ++ String "010" rest) (match p with Some kv => kv :: kvs | None => kvs end).
(** The last value of a key. *)
Fixpoint last_value (kvs : list (string * string)) (k : string) : option string :=
  match kvs with
  | [] => None
  | (k', v) :: r =>
      match last_value r k with
      | Some x => Some x
      | None => if String.eqb k' k then Some v else None
      end
  end.

(** What the global configuration file provides: nothing when it cannot be read or parsed. *)
Definition global_options (file : outcome string) : options :=
  match file with
  | Ok data => match parse_data (String " " (String "009" "=")) data with Ok m => m | _ => [] end
  | _ => []
  end.

(** ** Accepted configurations *)
(** Decimal numerals. *)
Inductive numeral : string -> Z -> Prop :=
| num_one : forall c, is_digit c = true -> numeral (String c "") (digit_val c)
| num_more : forall s n c, numeral s n -> is_digit c = true -> numeral (s ++ String c "") (10 * n + digit_val c).
Definition signed_text (s : string) (n : Z) : Prop :=
  (- 2 ^ 63 <= n < 2 ^ 63)%Z
  /\ (numeral s n \/ (exists d, s = String "+" d /\ numeral d n) \/ (exists d, s = String "-" d /\ numeral d (- n))).
Definition unsigned_text (s : string) (n : Z) : Prop :=
  (n < 2 ^ 64)%Z /\ (numeral s n \/ exists d, s = String "+" d /\ numeral d n).

Inductive format := AnyText | Flag | Signed | Unsigned | OneOf (names : list string).
Definition conforms (f : format) (v : string) : Prop :=
  match f with
  | AnyText => True
  | Flag => v = "true" \/ v = "false"
  | Signed => exists n, signed_text v n
  | Unsigned => exists n, unsigned_text v n
  | OneOf names => In (to_ascii_lowercase v) names
  end.
(** The options that are checked, with their formats. *)
Definition formats : list (string * format) :=
  [("hoodie.table.base.file.format", OneOf ["parquet"]);
   ("hoodie.base.path", AnyText);
   ("hoodie.table.checksum", Signed);
   ("hoodie.database.name", AnyText);
   ("hoodie.datasource.write.drop.partition.columns", Flag);
   ("hoodie.datasource.write.hive_style_partitioning", Flag);
   ("hoodie.datasource.write.partitionpath.urlencode", Flag);
   ("hoodie.table.keygenerator.class", AnyText);
   ("hoodie.table.partition.fields", AnyText);
   ("hoodie.table.precombine.field", AnyText);
   ("hoodie.populate.meta.fields", Flag);
   ("hoodie.table.recordkey.fields", AnyText);
   ("hoodie.table.record.merge.strategy", OneOf ["append_only"; "overwrite_with_latest"]);
   ("hoodie.table.name", AnyText);
   ("hoodie.table.type", OneOf ["copy_on_write"; "copy-on-write"; "cow"; "merge_on_read"; "merge-on-read"; "mor"]);
   ("hoodie.table.version", Signed);
   ("hoodie.timeline.layout.version", Signed);
   ("hoodie.table.timeline.timezone", OneOf ["utc"; "local"]);
   ("hoodie.read.file_group.start_timestamp", AnyText);
   ("hoodie.read.file_group.end_timestamp", AnyText);
   ("hoodie.read.input.partitions", Unsigned);
   ("hoodie.read.listing.parallelism", Unsigned);
   ("hoodie.read.use.read_optimized.mode", Flag)].
(** Merging by key needs meta fields and an ordering field. *)
Definition can_merge (m : options) : Prop :=
  forall v, oget "hoodie.table.record.merge.strategy" m = Some v -> to_ascii_lowercase v = "overwrite_with_latest" ->
    oget "hoodie.populate.meta.fields" m <> Some "false" /\ oget "hoodie.table.precombine.field" m <> None.
Definition supported (m : options) : Prop :=
  (forall k f v, In (k, f) formats -> oget k m = Some v -> conforms f v)
  /\ (forall k, In k ["hoodie.table.name"; "hoodie.table.type"; "hoodie.table.version"; "hoodie.timeline.layout.version"] -> oget k m <> None)
  /\ (forall v, oget "hoodie.table.version" m = Some v -> signed_text v 5 \/ signed_text v 6)
  /\ (forall v, oget "hoodie.timeline.layout.version" m = Some v -> signed_text v 1)
  /\ oget "hoodie.datasource.write.drop.partition.columns" m <> Some "true"
  /\ can_merge m.
