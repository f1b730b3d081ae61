(** Model of the calls on a table builder, in Rust (table/builder.rs:44-105, table/mod.rs:122-138) and in
    Python (python/hudi/table/builder.py, python/src/internal.rs:248-264 and 584-602), and of a builder that
    is used more than once ([build] takes [&mut self]). *)
From Verif Require Import Base Str M_Time M_Instant M_Timeline M_FileGroup M_Builder M_Listing M_Expr M_Log M_Config M_Reader M_Table M_Storage M_Objects M_Open.
Local Open Scope string_scope.

(** [with_hudi_option], [with_storage_option], [with_option] and their plural forms. *)
Inductive category := Hudi | Storage | Generic.
Inductive call :=
| One (c : category) (k v : string)
| Many (c : category) (kvs : list (string * string)).

(** table/builder.rs:98-105 [from_base_uri] *)
Definition from_base_uri (uri : string) : builder := {| b_base := uri; b_hudi := []; b_storage := []; b_options := [] |}.
(** the field of a category *)
Definition update (c : category) (f : options -> options) (b : builder) : builder :=
  match c with
  | Hudi => {| b_base := b_base b; b_hudi := f (b_hudi b); b_storage := b_storage b; b_options := b_options b |}
  | Storage => {| b_base := b_base b; b_hudi := b_hudi b; b_storage := f (b_storage b); b_options := b_options b |}
  | Generic => {| b_base := b_base b; b_hudi := b_hudi b; b_storage := b_storage b; b_options := f (b_options b) |}
  end.
(** table/builder.rs:53-84 [impl_with_options] *)
Definition with_call (b : builder) (c : call) : builder :=
  match c with
  | One cat k v => update cat (oput k v) b
  | Many cat kvs => update cat (oputs kvs) b
  end.
Definition with_calls (b : builder) (calls : list call) : builder := fold_left with_call calls b.

(** ** Python.  A [dict] keeps its keys in the order of their first insertion, as [oput] does. *)
(** builder.py:23-38 [HudiTableBuilder] *)
Record py_builder := { pb_base : string; pb_hudi : options; pb_storage : options; pb_options : options }.
(** builder.py:40-52 *)
Definition py_from_base_uri (uri : string) : py_builder := {| pb_base := uri; pb_hudi := []; pb_storage := []; pb_options := [] |}.
(** builder.py:54-58 [_add_options]: [dict.update] *)
Definition add_options (b : py_builder) (kvs : list (string * string)) (c : category) : py_builder :=
  match c with
  | Hudi => {| pb_base := pb_base b; pb_hudi := oputs kvs (pb_hudi b); pb_storage := pb_storage b; pb_options := pb_options b |}
  | Storage => {| pb_base := pb_base b; pb_hudi := pb_hudi b; pb_storage := oputs kvs (pb_storage b); pb_options := pb_options b |}
  | Generic => {| pb_base := pb_base b; pb_hudi := pb_hudi b; pb_storage := pb_storage b; pb_options := oputs kvs (pb_options b) |}
  end.
(** builder.py:60-141; the argument of a plural form is a [dict] *)
Definition py_with_call (b : py_builder) (c : call) : py_builder :=
  match c with
  | One cat k v => add_options b [(k, v)] cat
  | Many cat kvs => add_options b (oputs kvs []) cat
  end.
Definition py_with_calls (b : py_builder) (calls : list call) : py_builder := fold_left py_with_call calls b.

Section Build.
Variable iter : options -> list (string * string).
(** builder.py:143-152 [build] and internal.rs:584-602 [build_hudi_table]: the dictionaries become
    hash maps, which are iterated over *)
Definition py_rust_builder (b : py_builder) : builder :=
  with_calls (from_base_uri (pb_base b))
    [Many Hudi (iter (oputs (pb_hudi b) [])); Many Storage (iter (oputs (pb_storage b) [])); Many Generic (iter (oputs (pb_options b) []))].

(** builder.rs:131-147 [resolve_options] on [&mut self]: the builder afterwards, also when it fails *)
Definition resolve_mut (env : list (string * string)) (open : options -> options -> outcome unit)
    (properties global : options -> options -> outcome string) (b : builder) : builder * outcome unit :=
  let b := resolve_env env (resolve_user iter b) in
  match open (b_storage b) (b_hudi b) with
  | Err e => (b, Err e)
  | Panic => (b, Panic)
  | Ok _ =>
      match imbue_properties iter (properties (b_storage b) (b_hudi b)) (b_hudi b) with
      | Err e => (b, Err e)
      | Panic => (b, Panic)
      | Ok hudi =>
          ({| b_base := b_base b; b_hudi := imbue_global iter (global (b_storage b) (b_hudi b)) hudi; b_storage := b_storage b; b_options := b_options b |}, Ok tt)
      end
  end.
Variable env : list (string * string).
Variable parse : string -> option url.
Variable stores : url -> options -> outcome (list object).
Variable global : list object -> outcome string.
Variable local_to_utc : ndt -> option ndt.
Variable sort_unstable : list instant -> list instant.
(** builder.rs:107-129 [build] on [&mut self] *)
Definition build_mut (b : builder) : builder * outcome (table * url * list object) :=
  let (b, r) := resolve_mut env (fun s h => let* _ := storage_new parse stores s h in Ok tt) (read_properties parse stores) (read_global parse stores global) b in
  (b, let* _ := r in
      let* _ := expect (validate_configs (b_hudi b)) in
      let* (u, objs) := storage_new parse stores (b_storage b) (b_hudi b) in
      let* tz := timeline_timezone (b_hudi b) in
      let* files := list_files objs u ".hoodie" in
      let* commits := new_timeline local_to_utc sort_unstable tz (map fm_name files) in
      Ok ({| t_configs := b_hudi b; t_storage := b_storage b; t_commits := commits |}, u, objs)).
(** table/mod.rs:122-138 [Table::new] and [Table::new_with_options] *)
Definition table_new (uri : string) : outcome (table * url * list object) := snd (build_mut (from_base_uri uri)).
Definition table_new_with_options (uri : string) (opts : list (string * string)) : outcome (table * url * list object) :=
  snd (build_mut (with_call (from_base_uri uri) (Many Generic opts))).
(** internal.rs:248-264 [HudiTable(base_uri, options)] *)
Definition py_table (uri : string) (opts : option options) : outcome (table * url * list object) :=
  table_new_with_options uri (iter (match opts with Some d => oputs d [] | None => [] end)).
Definition py_build (b : py_builder) : outcome (table * url * list object) := snd (build_mut (py_rust_builder b)).
End Build.
