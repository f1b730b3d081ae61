(** Model of crates/datafusion/src/lib.rs: the table provider, its scan plan and the table factory. *)
From Verif Require Import Base Str M_Utf8 M_Time M_Instant M_Timeline M_FileGroup M_Builder M_Listing M_Expr S_Expr M_Config M_Reader M_Table M_Storage.
Local Open Scope string_scope.

(** ** [object_store::path::Path] from text, which [PartitionedFile::new] uses (outside the repository) *)
(** the encode set [INVALID] of path parts; non-ASCII bytes are always encoded *)
Definition invalid_in_part (c : ascii) : bool :=
  is_control c || (127 <=? N_of_ascii c)%N
  || existsb (Ascii.eqb c) ["/"; "\"; "{"; "^"; "}"; "%"; "`"; "]"; "034"; ">"; "["; "~"; "<"; "#"; "|"; "*"; "?"]%char.
Definition encode_part_char (c : ascii) : string :=
  if invalid_in_part c
  then String "%" (String (hex_char (N_of_ascii c / 16)) (String (hex_char (N_of_ascii c mod 16)) ""))
  else String c "".
Fixpoint encode_chars (s : string) : string := match s with "" => "" | String c r => encode_part_char c ++ encode_chars r end.
(** [PathPart::from] *)
Definition encode_part (s : string) : string :=
  if String.eqb s "." then "%2E" else if String.eqb s ".." then "%2E%2E" else encode_chars s.
(** [Path::from] *)
Definition path_from (s : string) : string :=
  join "/" (filter (fun p => negb (String.eqb p "")) (map encode_part (split "/" s))).

(** [PartitionedFile]: the object and its size *)
Record planned_file := { pf_location : string; pf_size : Z }.
(** lib.rs:188-202: one file of the plan *)
Definition scan_file (base : url) (s : file_slice) : outcome planned_file :=
  let* u := join_url_segments base [base_relative_path s] in
  Ok {| pf_location := path_from (u_path u); pf_size := match bf_meta (fs_base s) with Some m => fm_size m | None => 0%Z end |}.

Section Provider.
(** Arrow types and scalars, see M_Expr and M_Table. *)
Variable dtype value : Type.
Variable cast : dtype -> string -> option value.
Variable cmp : value -> value -> option comparison.
Variable local_to_utc : ndt -> option ndt.
Variable st : store dtype.
Variable tb : table.
(** [Table::base_url] *)
Variable base : url.
(** literals *)
Variable lit : Type.
Variable lit_display : lit -> string.

(** lib.rs:156-164 [schema]: the names of the columns; no columns if the schema cannot be read *)
Definition schema_columns : outcome (list string) :=
  match (let* path := latest_schema_path (st_json _ st) (t_commits tb) in st_schema _ st path) with
  | Ok s => Ok (map fst s)
  | Err _ => Ok []
  | Panic => Panic
  end.
(** lib.rs:233-247 [supports_filters_pushdown]: [true] is [Inexact], [false] is [Unsupported].  The
    engine hands the former to [scan], and evaluates all of them on the rows of the plan. *)
Definition supports_filters_pushdown (es : list (df_expr lit)) : outcome (list bool) :=
  let* cols := schema_columns in
  Ok (map (can_push_down lit (fun c => existsb (String.eqb c) cols)) es).
Fixpoint handed {A} (es : list A) (flags : list bool) : list A :=
  match es, flags with
  | e :: es', f :: flags' => if f then e :: handed es' flags' else handed es' flags'
  | _, _ => []
  end.

(** lib.rs:170-231 [scan], from the view before to the view after: the groups of files of the plan.
    Errors are wrapped, their kind is not kept apart here; projection, limit and the predicate of the
    plan are the engine's, see [sql_query]. *)
Inductive scan (es : list (df_expr lit)) : cache -> cache -> outcome (list (list planned_file)) -> Prop :=
| sc_panic : forall c, input_partitions (t_configs tb) = Panic -> scan es c c Panic
| sc_plan : forall n c c' r, input_partitions (t_configs tb) = Ok n ->
    get_file_slices_splits dtype value cast cmp local_to_utc st tb (Z.to_nat n) (exprs_to_filters lit lit_display es) c c' r ->
    scan es c c' (let* parts := r in mapM (mapM (scan_file base)) parts).

(** ** The engine around the plan (DataFusion, outside the repository) *)
(** The rows of the object with a key; the columns of a row; the meaning of literals and of the
    expressions that are not comparisons. *)
Variable row : Type.
Variable objects : string -> outcome (list row).
Variable column : row -> string -> option value.
Variable lit_value : lit -> option value.
Variable opaque : row -> df_expr lit -> option bool.

Definition is_true (e : df_expr lit) (r : row) : bool :=
  match truth lit value lit_value cmp (column r) (opaque r) e with Some true => true | _ => false end.
Definition all_true (es : list (df_expr lit)) (r : row) : bool := forallb (fun e => is_true e r) es.
(** [ParquetExec] with a predicate may skip rows on which the predicate is not true. *)
Inductive skips (p : row -> bool) : list row -> list row -> Prop :=
| sk_nil : skips p [] []
| sk_keep : forall r l l', skips p l l' -> skips p (r :: l) (r :: l')
| sk_skip : forall r l l', p r = false -> skips p l l' -> skips p (r :: l) l'.

(** [SELECT * FROM table WHERE e1 AND e2 ...]: the rows come in any order. *)
Inductive sql_query (es : list (df_expr lit)) : cache -> cache -> outcome (list row) -> Prop :=
| sq_schema : forall c, supports_filters_pushdown es = Panic -> sql_query es c c Panic
| sq_err : forall flags c c' e, supports_filters_pushdown es = Ok flags -> scan (handed es flags) c c' (Err e) -> sql_query es c c' (Err e)
| sq_panic : forall flags c c', supports_filters_pushdown es = Ok flags -> scan (handed es flags) c c' Panic -> sql_query es c c' Panic
| sq_read : forall flags c c' groups f e, supports_filters_pushdown es = Ok flags -> scan (handed es flags) c c' (Ok groups) ->
    In f (List.concat groups) -> objects (pf_location f) = Err e -> sql_query es c c' (Err e)
| sq_rows : forall flags c c' groups rss kept out, supports_filters_pushdown es = Ok flags -> scan (handed es flags) c c' (Ok groups) ->
    Forall2 (fun f rs => objects (pf_location f) = Ok rs) (List.concat groups) rss ->
    Forall2 (skips (all_true (handed es flags))) rss kept ->
    Permutation (filter (all_true es) (List.concat kept)) out ->
    sql_query es c c' (Ok out).
End Provider.

(** ** The table factory *)
(** lib.rs:290-310 [resolve_options]: entries of the session, then the options of the command; both
    maps are visited in any order *)
Definition factory_options (session : list (string * option string)) (command : list (string * string)) : options :=
  oputs command
    (oputs (flat_map (fun e => match snd e with
                               | Some v => if String.eqb v "" then [] else [(fst e, v)]
                               | None => []
                               end) session) []).
(** lib.rs:322-331 [create] with table/builder.rs:64-81 [from_base_uri], [with_options]: the builder of
    the table *)
Definition factory_builder (iter : options -> list (string * string)) (location : string)
    (session : list (string * option string)) (command : list (string * string)) : builder :=
  {| b_base := location; b_hudi := []; b_storage := []; b_options := oputs (iter (factory_options session command)) [] |}.
