(** Specification of the table provider for SQL queries. *)
From Verif Require Import Base Str M_Utf8 M_Time M_Timeline M_FileGroup M_Builder M_Listing M_Expr S_Expr M_Config S_Config M_Storage S_Storage M_Table S_Table M_Scan.
Local Open Scope string_scope.

(** ** Addressing *)
(** Visible ASCII characters without the ones that are escaped in URLs or in keys of objects. *)
Definition safe_char (c : ascii) : Prop :=
  (33 <= N_of_ascii c <= 126)%N
  /\ ~ In c ["\"; "{"; "}"; "^"; "%"; "`"; "["; "]"; "034"; "<"; ">"; "~"; "#"; "|"; "*"; "?"]%char.
Fixpoint safe (s : string) : Prop := match s with "" => True | String c r => safe_char c /\ safe r end.
(** The text of a URL path has visible ASCII characters only. *)
Fixpoint url_text (s : string) : Prop := match s with "" => True | String c r => (33 <= N_of_ascii c <= 126)%N /\ url_text r end.
(** The table directory, name by name, and how its URL writes it; a slash may follow. *)
Definition written (base : url) (names encs : list string) : Prop :=
  u_opaque base = false /\ Forall legal names /\ (u_file base = true -> names <> [])
  /\ Forall2 encodes names encs /\ Forall url_text encs
  /\ (u_path base = leading encs \/ u_path base = leading encs ++ "/").

(** ** Plans *)
(** A planned object is the base file of a slice, if its name needs no escapes. *)
Definition located_at (base : url) (s : file_slice) (loc : string) : Prop :=
  forall names ns, written base names names -> path_names (base_relative_path s) ns -> Forall safe (names ++ ns) -> loc = key_of (names ++ ns).
(** The number of partitions that the options ask for: zero unless it is a number. *)
Definition asked_partitions (m : options) (n : Z) : Prop :=
  (exists text, oget "hoodie.read.input.partitions" m = Some text /\ unsigned_text text n)
  \/ ((forall text k, oget "hoodie.read.input.partitions" m = Some text -> ~ unsigned_text text k) /\ n = 0%Z).
(** A plan reads the base file of every slice once, in groups as asked for, with the sizes of the files in
    the storage. *)
Definition plans (meta : string -> outcome file_meta) (located_at : file_slice -> string -> Prop) (n : Z) (ss : list file_slice) (groups : list (list planned_file)) : Prop :=
  split_into (Z.to_nat n) (List.concat groups) groups
  /\ Forall2 (fun s f => located_at s (pf_location f) /\ exists m, meta (base_relative_path s) = Ok m /\ pf_size f = fm_size m) ss (List.concat groups).

(** ** Rows and partitions *)
(** A row lies in a partition: its columns have the values in the path of the partition. *)
Definition lies_in {dtype value} (cast : dtype -> string -> option value) (coltype : string -> dtype) (fields : list (string * dtype)) (hive url : bool)
    (columns : string -> option value) (path : string) : Prop :=
  exists values, named hive url fields values path /\ List.length values = List.length fields
    /\ forall n ty v, In ((n, ty), v) (combine fields values) -> ty = coltype n /\ exists x, cast ty v = Some x /\ columns n = Some x.
(** The rows of the base file of a slice; the name of its object needs no escapes. *)
Definition stores {row} (objects : string -> outcome (list row)) (names : list string) (s : file_slice) (rows : list row) : Prop :=
  exists ns, path_names (base_relative_path s) ns /\ Forall safe ns /\ objects (key_of (names ++ ns)) = Ok rows.
(** The slices that a query of the latest snapshot returns. *)
Definition latest_slice {dtype} value (cast : dtype -> string -> option value) cmp local_to_utc (st : store dtype) tb (s : file_slice) : Prop :=
  exists c c' ss, view_after dtype value cast cmp local_to_utc st tb c /\ get_file_slices dtype value cast cmp local_to_utc st tb [] c c' (Ok ss) /\ In s ss.

(** ** Options of new tables *)
(** A setting of the session with a value. *)
Definition session_sets (session : list (string * option string)) (k v : string) : Prop := In (k, Some v) session /\ v <> "".
