(** Model of crates/core/src/expr/{mod,filter}.rs, crates/core/src/table/partition.rs,
    crates/core/src/table/mod.rs:206-224 and crates/datafusion/src/util/expr.rs. *)
From Verif Require Import Base Str M_Utf8.
Local Open Scope string_scope.

(** expr/mod.rs:30-38 *)
Inductive operator := OEq | ONe | OLt | OLte | OGt | OGte.

(** expr/mod.rs:40-52 *)
Definition op_display (o : operator) : string :=
  match o with OEq => "=" | ONe => "!=" | OLt => "<" | OLte => "<=" | OGt => ">" | OGte => ">=" end.
(** expr/mod.rs:55-62 *)
Definition TOKEN_OP_PAIRS : list (string * operator) :=
  [("=", OEq); ("!=", ONe); ("<", OLt); ("<=", OLte); (">", OGt); (">=", OGte)].
(** expr/mod.rs:65-74 *)
Definition negate_op (o : operator) : option operator :=
  match o with
  | OEq => Some ONe | ONe => Some OEq | OLt => Some OGte
  | OLte => Some OGt | OGt => Some OLte | OGte => Some OLt
  end.
(** expr/mod.rs:80-91 *)
Definition op_from_str (s : string) : outcome operator :=
  match find (fun e => String.eqb (to_ascii_lowercase (fst e)) (to_ascii_lowercase s)) TOKEN_OP_PAIRS with
  | Some (_, o) => Ok o
  | None => Err EUnsupported
  end.

(** filter.rs:30-34 *)
Record filter_expr := { fe_field : string; fe_op : operator; fe_value : string }.
(** filter.rs:37-42 *)
Definition negate_filter (f : filter_expr) : option filter_expr :=
  option_map (fun o => {| fe_field := fe_field f; fe_op := o; fe_value := fe_value f |}) (negate_op (fe_op f)).
(** filter.rs:45-53 *)
Definition filter_to_tuple (f : filter_expr) : string * string * string :=
  (fe_field f, op_display (fe_op f), fe_value f).
(** filter.rs:55-73 *)
Definition filter_of_tuple (t : string * string * string) : outcome filter_expr :=
  let '(name, op, v) := t in
  let* o := op_from_str op in
  Ok {| fe_field := name; fe_op := o; fe_value := v |}.
(** filter.rs:75-77 *)
Definition from_str_tuples (l : list (string * string * string)) : outcome (list filter_expr) := mapM filter_of_tuple l.

Section Pruner.
(** Arrow data types and scalars; [cast] is [cast_with_options] of a string with [safe = false]
    ([None]: an error), [cmp] the ordering used by the kernels [eq] ... [gt_eq] of arrow_ord
    ([None]: an error). *)
Variable dtype value : Type.
Variable cast : dtype -> string -> option value.
Variable cmp : value -> value -> option comparison.

(** An Arrow schema: names and types of the fields. *)
Definition schema := list (string * dtype).

(** filter.rs:145-150 *)
Record schemable := { sf_name : string; sf_type : dtype; sf_op : operator; sf_value : value }.
(** filter.rs:152-172; [Schema::field_with_name] finds the first field of that name *)
Definition schemable_of (s : schema) (f : filter_expr) : outcome schemable :=
  let* (n, ty) := ok_or (find (fun e => String.eqb (fst e) (fe_field f)) s) ESchema in
  let* v := ok_or (cast ty (fe_value f)) ESchema in
  Ok {| sf_name := n; sf_type := ty; sf_op := fe_op f; sf_value := v |}.

(** filter.rs:190-200 with the kernels of arrow_ord::cmp *)
Definition op_test (o : operator) (c : comparison) : bool :=
  match o, c with
  | OEq, Eq => true | OEq, _ => false
  | ONe, Eq => false | ONe, _ => true
  | OLt, Lt => true | OLt, _ => false
  | OLte, Gt => false | OLte, _ => true
  | OGt, Gt => true | OGt, _ => false
  | OGte, Lt => false | OGte, _ => true
  end.
Definition apply_comparison (f : schemable) (v : value) : outcome bool :=
  match cmp v (sf_value f) with Some c => Ok (op_test (sf_op f) c) | None => Err EArrow end.

(** partition.rs:53-58 *)
Record pruner := { pr_schema : schema; pr_hive : bool; pr_url : bool; pr_filters : list schemable }.
(** partition.rs:61-84; the two configuration lookups are parameters (a lookup without default
    panics) *)
Definition new_pruner (filters : list filter_expr) (s : schema) (hive url : outcome bool) : outcome pruner :=
  let* fs := mapM (schemable_of s) filters in
  let* h := hive in
  let* u := url in
  Ok {| pr_schema := s; pr_hive := h; pr_url := u; pr_filters := fs |}.
(** partition.rs:87-94 *)
Definition empty_pruner : pruner := {| pr_schema := []; pr_hive := false; pr_url := false; pr_filters := [] |}.
(** partition.rs:97-99 *)
Definition pruner_is_empty (p : pruner) : bool := match pr_filters p with [] => true | _ => false end.

(** partition.rs:144-162: the value of one field *)
Definition parse_segment (hive : bool) (field : string * dtype) (part : string) : outcome (string * value) :=
  let* v := if hive then
              let* (name, v) := ok_or (split_once "=" part) EInvalidPartitionPath in
              if negb (String.eqb name (fst field)) then Err EInvalidPartitionPath else Ok v
            else Ok part in
  let* sc := ok_or (cast (snd field) v) ESchema in
  Ok (fst field, sc).
(** partition.rs:121-164; the resulting map is a list, the last entry of a name counts *)
Definition parse_segments (p : pruner) (path : string) : outcome (list (string * value)) :=
  let* plain := if pr_url p then
                  let d := percent_decode path in if utf8_valid d then Ok d else Err EUtf8
                else Ok path in
  let parts := split "/" plain in
  if negb (Nat.eqb (List.length parts) (List.length (pr_schema p))) then Err EInvalidPartitionPath
  else mapM (fun e => parse_segment (pr_hive p) (fst e) (snd e)) (combine (pr_schema p) parts).
Definition seg_get (k : string) (segs : list (string * value)) : option value :=
  option_map snd (find (fun e => String.eqb (fst e) k) (rev segs)).

(** partition.rs:102-119; nothing here can panic once parsing does not *)
Definition should_include (p : pruner) (path : string) : bool :=
  match parse_segments p path with
  | Ok segs =>
      forallb (fun f => match seg_get (sf_name f) segs with
                        | Some v => match apply_comparison f v with Ok b => b | _ => true end
                        | None => true
                        end) (pr_filters p)
  | _ => true
  end.

(** table/mod.rs:207-224 [get_partition_schema], from the table schema and the configured fields *)
Definition partition_schema (table : schema) (configured : list string) : schema :=
  filter (fun f => existsb (String.eqb (fst f)) configured) table.
End Pruner.

(** ** DataFusion expressions, crates/datafusion/src/util/expr.rs *)
(** Comparison and other operators. *)
Inductive df_op := DEq | DNotEq | DLt | DLtEq | DGt | DGtEq | DOther (n : nat).

Section DataFusion.
(** Literals ([ScalarValue]) with their [Display]. *)
Variable lit : Type.
Variable lit_display : lit -> string.

(** The expressions that matter; all the others are [XOther]. *)
Inductive df_expr :=
| XCol (name : string)
| XLit (l : lit)
| XBin (l : df_expr) (op : df_op) (r : df_expr)
| XNot (e : df_expr)
| XOther (n : nat) (args : list df_expr).

(** expr.rs:61-69 *)
Definition df_operator (o : df_op) : option operator :=
  match o with
  | DEq => Some OEq | DNotEq => Some ONe | DLt => Some OLt
  | DLtEq => Some OLte | DGt => Some OGt | DGtEq => Some OGte
  | DOther _ => None
  end.
(** expr.rs:50-72 *)
Definition binary_expr_to_filter (l : df_expr) (o : df_op) (r : df_expr) : option filter_expr :=
  match (match l, r with
         | XCol c, XLit v => Some (c, v)
         | XLit v, XCol c => Some (c, v)
         | _, _ => None
         end) with
  | Some (c, v) =>
      option_map (fun op => {| fe_field := c; fe_op := op; fe_value := lit_display v |}) (df_operator o)
  | None => None
  end.
(** expr.rs:75-82 *)
Definition not_expr_to_filter (e : df_expr) : option filter_expr :=
  match e with
  | XBin l o r => match binary_expr_to_filter l o r with Some f => negate_filter f | None => None end
  | _ => None
  end.
(** expr.rs:40-44 *)
Definition expr_to_filter (e : df_expr) : option filter_expr :=
  match e with
  | XBin l o r => binary_expr_to_filter l o r
  | XNot n => not_expr_to_filter n
  | _ => None
  end.
(** expr.rs:37-47 *)
Definition exprs_to_filters (es : list df_expr) : list (string * string * string) :=
  map filter_to_tuple (flat_map (fun e => match expr_to_filter e with Some f => [f] | None => [] end) es).

(** crates/datafusion/src/lib.rs:107-146: the conjuncts handed to [scan]; [has_column] tells the
    columns of the table schema *)
Fixpoint can_push_down (has_column : string -> bool) (e : df_expr) : bool :=
  let operand x := match x with XCol c => has_column c | XLit _ => true | _ => false end in
  match e with
  | XBin l o r => (match o with DOther _ => false | _ => true end) && operand l && operand r
  | XNot n => can_push_down has_column n
  | _ => false
  end.
End DataFusion.
Arguments XCol {lit}.
Arguments XLit {lit}.
Arguments XBin {lit}.
Arguments XNot {lit}.
Arguments XOther {lit}.
