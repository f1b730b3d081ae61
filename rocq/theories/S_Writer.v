(** Specification of the writers of a table, step by step: which objects they add to the storage, in which order.  Nothing
    but the keys and contents of the objects is used, and what the writers mean by them. *)
From Verif Require Import Base Str M_Utf8 M_Time M_FileGroup M_Listing M_Log M_Reader M_Storage M_Avro M_Values M_Objects
  S_Time S_FileGroup S_Listing S_Log S_Reader S_Avro S_Storage S_Objects S_History S_Values S_Datum.
Local Open Scope string_scope.

(** File ids, write tokens, versions of log files and extensions. *)
Definition word (w : string) : Prop :=
  w <> "" /\ has_char "_" w = false /\ has_char "/" w = false /\ has_char "." w = false /\ has_control w = false /\ utf8_valid w = true.
(** Directories of data, [depth] below the directory of the table and not in a metadata directory. *)
Definition data_dir (depth : nat) (dir : list string) : Prop :=
  Forall legal dir /\ List.length dir = depth /\ forall top rest, dir = top :: rest -> ~ In top [".hoodie"; "_delta_log"; "metadata"].
(** Tables with [depth] partition columns. *)
Definition has_partitions (depth : nat) : bool := negb (Nat.eqb depth 0).

(** A base file, and a log file with its blocks. *)
Record base_entry := { be_dir : list string; be_id : string; be_token : string; be_commit : string; be_data : string }.
Record log_entry := { le_dir : list string; le_id : string; le_base : string; le_version : string; le_token : string; le_blocks : list (wblock * list value) }.
Definition be_group (e : base_entry) : string * string := (join "/" (be_dir e), be_id e).
Definition le_group (e : log_entry) : string * string := (join "/" (le_dir e), le_id e).
Definition base_entry_name (format : string) (e : base_entry) : string := be_id e ++ "_" ++ be_token e ++ "_" ++ be_commit e ++ "." ++ format.
Definition log_entry_name (e : log_entry) : string := "." ++ le_id e ++ "_" ++ le_base e ++ "." ++ "log" ++ "." ++ le_version e ++ "_" ++ le_token e.

(** What writers have put into a storage: base files, log files, and other objects (timeline, properties, markers, other
    tables); and what they mean: the history of each file group, and the time of its last write. *)
Record storage := {
  w_bases : list base_entry;
  w_logs : list log_entry;
  w_others : list object;
  w_hist : string * string -> group;
  w_last : string * string -> string
}.
Section Writer.
Variable table : list string.
Variable format : string.
Variable depth : nat.
Definition base_object (e : base_entry) : object := {| o_key := key_of (table ++ be_dir e ++ [base_entry_name format e]); o_data := be_data e |}.
Definition log_object (e : log_entry) : object := {| o_key := key_of (table ++ le_dir e ++ [log_entry_name e]); o_data := put_log (map fst (le_blocks e)) |}.
Definition objects_of (w : storage) : list object := (map base_object (w_bases w) ++ map log_object (w_logs w) ++ w_others w)%list.
(** Objects that are no data of the table: elsewhere, in metadata directories, beside the partitions, or markers.  In a
    table without partitions they may be anywhere below the directory of the table. *)
Definition beside (names : list string) : Prop :=
  match depth with
  | O => (2 <= List.length names)%nat
  | S _ => List.length names = 1%nat \/ exists top rest, names = top :: rest /\ In top [".hoodie"; "_delta_log"; "metadata"]
  end.
Definition other_object (o : object) : Prop :=
  (exists names, names <> [] /\ Forall legal names /\ o_key o = key_of names)
  /\ forall names, names <> [] -> Forall legal names -> o_key o = key_of (table ++ names) ->
       beside names \/ exists dir name, names = (dir ++ [name])%list /\ data_dir depth dir /\ marker_name name.

Variable parse_schema : string -> option avro.
Variable code : dtype -> nat.
Variable rank : dtype -> slot -> Z.
Variable parse_rows : string -> outcome record_batch.
Variable footer : string -> outcome (Z * Z).
Variable dfs : list M_Avro.field.
Variable k p s : nat.
Definition set_group {A} (f : string * string -> A) (g : string * string) (a : A) : string * string -> A :=
  fun g' => if (String.eqb (fst g') (fst g) && String.eqb (snd g') (snd g))%bool then a else f g'.
(** A file group that gets its first write may get records of other groups: clustering. *)
Inductive wrote (g : group) (x : string) : group -> Prop :=
| wrote_write : forall g', write k p s g x g' -> wrote g x g'
| wrote_moved : forall moved rows, g = new_group_history -> (forall y r, In (y, r) moved -> sle y x) -> latest_rows k p s (map snd moved) rows ->
    wrote g x {| g_versions := moved; g_bases := [(x, rows)]; g_blocks := []; g_failed := []; g_rollbacks := [] |}.
(** The write at [x] adds [blocks] of the log of [b], and rollbacks. *)
Definition typed_versions (g : group) : Prop := forall x r, In (x, r) (g_versions g) -> wf_row (map (as_field code) dfs) r.
(** A block of a log file as a writer makes it at [x]: records, or a rollback of [y]. *)
Definition block_fine (x : string) (w : wblock) (vs : list value) : Prop := logged parse_schema encodes dfs w vs /\ target_given w /\ at_instant w x.
Inductive block_of (g : group) (b x : string) (w : wblock) (vs : list value) : group -> Prop :=
| bo_data : forall g', (forall y, ~ rolls_back w y) -> g_bases g' = g_bases g -> g_rollbacks g' = g_rollbacks g ->
    g_blocks g' = (g_blocks g ++ [(b, x, map (row_of code rank dfs) vs)])%list -> block_of g b x w vs g'
| bo_rollback : forall g' y, (forall z, rolls_back w z <-> z = y) -> vs = [] -> g_bases g' = g_bases g -> g_blocks g' = g_blocks g ->
    g_rollbacks g' = (g_rollbacks g ++ [(b, x, y)])%list -> block_of g b x w vs g'.

Inductive step (w : storage) : storage -> Prop :=
(* a commit, a compaction or clustering writes a base file *)
| st_base : forall dir id token x data g' rows, let g := (join "/" dir, id) in
    data_dir depth dir -> word id -> word token -> timestamp x -> slt (w_last w g) x ->
    wrote (w_hist w g) x g' -> g_bases g' = (g_bases (w_hist w g) ++ [(x, rows)])%list -> typed_versions g' ->
    parse_rows data = Ok {| rb_fields := map (as_field code) dfs; rb_rows := rows |} -> (exists stats, footer data = Ok stats) ->
    step w {| w_bases := {| be_dir := dir; be_id := id; be_token := token; be_commit := x; be_data := data |} :: w_bases w; w_logs := w_logs w; w_others := w_others w;
              w_hist := set_group (w_hist w) g g'; w_last := set_group (w_last w) g x |}
(* a deltacommit, a failed one or a rollback writes a block to a new log file *)
| st_log : forall dir id version token x b bl vs g', let g := (join "/" dir, id) in
    data_dir depth dir -> word id -> word version -> word token -> timestamp x -> slt (w_last w g) x ->
    write k p s (w_hist w g) x g' -> block_of (w_hist w g) b x bl vs g' -> In b (map fst (g_bases (w_hist w g))) -> typed_versions g' -> block_fine x bl vs ->
    (forall e, In e (w_logs w) -> le_group e = g -> le_base e = b -> le_version e = version -> le_token e <> token) ->
    step w {| w_bases := w_bases w; w_logs := {| le_dir := dir; le_id := id; le_base := b; le_version := version; le_token := token; le_blocks := [(bl, vs)] |} :: w_logs w; w_others := w_others w;
              w_hist := set_group (w_hist w) g g'; w_last := set_group (w_last w) g x |}
(* ... or appends it to a log file *)
| st_append : forall before e after x bl vs g', let g := le_group e in
    w_logs w = (before ++ e :: after)%list -> timestamp x -> slt (w_last w g) x ->
    write k p s (w_hist w g) x g' -> block_of (w_hist w g) (le_base e) x bl vs g' -> typed_versions g' -> block_fine x bl vs ->
    step w {| w_bases := w_bases w;
              w_logs := (before ++ {| le_dir := le_dir e; le_id := le_id e; le_base := le_base e; le_version := le_version e; le_token := le_token e; le_blocks := le_blocks e ++ [(bl, vs)] |} :: after)%list;
              w_others := w_others w; w_hist := set_group (w_hist w) g g'; w_last := set_group (w_last w) g x |}
(* an object of the timeline, a marker, an object of another table *)
| st_other : forall o, other_object o -> ~ In (o_key o) (map o_key (objects_of w)) ->
    step w {| w_bases := w_bases w; w_logs := w_logs w; w_others := o :: w_others w; w_hist := w_hist w; w_last := w_last w |}
(* ... is removed *)
| st_remove : forall before o after, w_others w = (before ++ o :: after)%list ->
    step w {| w_bases := w_bases w; w_logs := w_logs w; w_others := (before ++ after)%list; w_hist := w_hist w; w_last := w_last w |}.

Definition empty_storage : storage := {| w_bases := []; w_logs := []; w_others := []; w_hist := fun _ => new_group_history; w_last := fun _ => "" |}.
(** All that writers can leave. *)
Inductive left : storage -> Prop :=
| left_empty : left empty_storage
| left_step : forall w w', left w -> step w w' -> left w'.
(** All that they can leave later on, when they write after [t]. *)
Inductive after (t : string) (w : storage) : storage -> Prop :=
| after_same : after t w w
| after_step : forall w' w'', after t w w' -> step w' w'' -> (forall g, w_last w'' g <> w_last w' g -> slt t (w_last w'' g)) -> after t w w''.
End Writer.
(** The file groups of the table at [t]: those with a base file by then, except the replaced ones. *)
Definition groups_at (w : storage) (t : string) (replaced : string * string -> Prop) (g : string * string) : Prop :=
  (exists c, In c (map fst (g_bases (w_hist w g))) /\ sle c t) /\ ~ replaced g.
