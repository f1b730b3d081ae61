(** Model of crates/core/src/file_group/{base_file,log_file/mod,file_slice,mod}.rs *)
From Verif Require Import Base Str M_BTree.
Local Open Scope string_scope.

(** crates/core/src/storage/file_metadata.rs:21-36; sizes and counts are integers. *)
Record file_meta := {
  fm_name : string;
  fm_size : Z;
  fm_byte_size : Z;
  fm_num_records : Z;
  fm_populated : bool
}.
(** storage/file_metadata.rs:39-47 [FileMetadata::new] *)
Definition new_meta (name : string) (size : Z) : file_meta :=
  {| fm_name := name; fm_size := size; fm_byte_size := 0; fm_num_records := 0; fm_populated := false |}.

(** ** Base files, base_file.rs:27-45 *)
Record base_file := {
  bf_file_id : string;
  bf_write_token : string;
  bf_commit : string;
  bf_ext : string;
  bf_meta : option file_meta
}.

(** base_file.rs:54-82 [BaseFile::parse_file_name]: (file_id, write_token, commit, extension) *)
Definition parse_base_name (name : string) : outcome (string * string * string * string) :=
  let* (stem, ext) := ok_or (rsplit_once "." name) EFileGroup in
  let parts := split "_" stem in
  let* file_id := ok_or (nth_error parts 0) EFileGroup in
  let* token := ok_or (nth_error parts 1) EFileGroup in
  let* commit := ok_or (nth_error parts 2) EFileGroup in
  Ok (file_id, token, commit, ext).

(** base_file.rs:84-93 [BaseFile::file_name] *)
Definition base_file_name (f : base_file) : string :=
  bf_file_id f ++ "_" ++ bf_write_token f ++ "_" ++ bf_commit f ++ "." ++ bf_ext f.

(** base_file.rs:102-106: equality is equality of names *)
Definition base_file_eqb (a c : base_file) : bool := String.eqb (base_file_name a) (base_file_name c).

(** base_file.rs:110-123 and 125-139: [from_str] and [try_from(FileMetadata)] *)
Definition base_file_of (name : string) (m : option file_meta) : outcome base_file :=
  let* (id, token, commit, ext) := parse_base_name name in
  Ok {| bf_file_id := id; bf_write_token := token; bf_commit := commit; bf_ext := ext; bf_meta := m |}.
Definition base_file_from_str (name : string) := base_file_of name None.
Definition base_file_try_from (m : file_meta) := base_file_of (fm_name m) (Some m).

(** ** Log files, log_file/mod.rs:32-40 *)
Record log_file := {
  lf_file_id : string;
  lf_base_commit : string;
  lf_ext : string;
  lf_version : string;
  lf_write_token : string;
  lf_meta : option file_meta
}.

(** log_file/mod.rs:53-95 [LogFile::parse_file_name]: (id, base commit, extension, version, token) *)
Definition parse_log_name (name : string) : outcome (string * string * string * string * string) :=
  match name with
  | String "." rest0 =>
      let* (file_id, rest) := ok_or (split_once "_" rest0) EFileGroup in
      let* (middle, token) := ok_or (rsplit_once "_" rest) EFileGroup in
      match split "." middle with
      | [commit; ext; version] =>
          if String.eqb file_id "" || String.eqb commit "" || String.eqb ext ""
             || String.eqb version "" || String.eqb token ""
          then Err EFileGroup
          else Ok (file_id, commit, ext, version, token)
      | _ => Err EFileGroup
      end
  | _ => Err EFileGroup
  end.

(** log_file/mod.rs:97-109 [LogFile::file_name] *)
Definition log_file_name (f : log_file) : string :=
  "." ++ lf_file_id f ++ "_" ++ lf_base_commit f ++ "." ++ lf_ext f ++ "." ++ lf_version f ++ "_" ++ lf_write_token f.

(** log_file/mod.rs:112-146: [from_str] and [try_from(FileMetadata)] *)
Definition log_file_of (name : string) (m : option file_meta) : outcome log_file :=
  let* (id, commit, ext, version, token) := parse_log_name name in
  Ok {| lf_file_id := id; lf_base_commit := commit; lf_ext := ext; lf_version := version;
        lf_write_token := token; lf_meta := m |}.
Definition log_file_from_str (name : string) := log_file_of name None.
Definition log_file_try_from (m : file_meta) := log_file_of (fm_name m) (Some m).

(** log_file/mod.rs:168-177 [Ord for LogFile]: base commit, then version, then write token, all
    compared as strings; the file id and the extension are not compared. *)
Definition log_key (f : log_file) : string * string * string :=
  (lf_base_commit f, lf_version f, lf_write_token f).
Definition log_key_cmp (a c : string * string * string) : comparison :=
  let '(a1, a2, a3) := a in
  let '(c1, c2, c3) := c in
  match scmp a1 c1 with
  | Eq => match scmp a2 c2 with Eq => scmp a3 c3 | r => r end
  | r => r
  end.
Definition log_cmp (a c : log_file) : comparison := log_key_cmp (log_key a) (log_key c).

(** [BTreeSet<LogFile>] *)
Definition log_set := list log_file.
Definition log_insert (f : log_file) (s : log_set) : log_set := sadd log_key log_key_cmp f s.
Definition log_extend (s : log_set) (l : list log_file) : log_set := fold_left (fun s f => log_insert f s) l s.

(** ** File slices, file_slice.rs:30-36 *)
Record file_slice := {
  fs_base : base_file;
  fs_logs : log_set;
  fs_partition : string
}.
(** file_slice.rs:56-62 *)
Definition new_slice (b : base_file) (p : string) : file_slice :=
  {| fs_base := b; fs_logs := []; fs_partition := p |}.
(** file_slice.rs:47-51 *)
Definition slice_eqb (a c : file_slice) : bool :=
  base_file_eqb (fs_base a) (fs_base c) && String.eqb (fs_partition a) (fs_partition c).
(** file_slice.rs:64-67 *)
Definition has_log_file (s : file_slice) : bool := match fs_logs s with [] => false | _ => true end.

Definition with_logs (s : file_slice) (l : log_set) : file_slice :=
  {| fs_base := fs_base s; fs_logs := l; fs_partition := fs_partition s |}.

(** file_slice.rs:69-78 [FileSlice::merge]; the receiver is unchanged on error. *)
Definition merge_slice (a c : file_slice) : outcome file_slice :=
  if negb (slice_eqb a c) then Err EFileGroup
  else Ok (with_logs a (log_extend (fs_logs a) (fs_logs c))).

(** file_slice.rs:80-98: [PathBuf::from(partition).join(file_name)]; an empty partition gives the
    bare name, an absolute second operand would replace the first, a trailing separator is not
    doubled. *)
Definition path_join (a c : string) : string :=
  if starts_with "/" c then c
  else if String.eqb a "" then c
  else if ends_with "/" a then a ++ c
  else a ++ "/" ++ c.
Definition base_relative_path (s : file_slice) : string := path_join (fs_partition s) (base_file_name (fs_base s)).
Definition log_relative_path (s : file_slice) (l : log_file) : string := path_join (fs_partition s) (log_file_name l).

(** ** File groups, mod.rs:45-50.  [file_slices : BTreeMap<String, FileSlice>] *)
Definition slice_entry : Type := (string * file_slice)%type.
Definition slice_map := list slice_entry.
Definition ekey (e : slice_entry) : string := fst e.
Record file_group := {
  fg_id : string;
  fg_partition : string;
  fg_slices : slice_map
}.
(** mod.rs:52-64: identity is (file_id, partition) *)
Definition fg_eqb (a c : file_group) : bool :=
  String.eqb (fg_id a) (fg_id c) && String.eqb (fg_partition a) (fg_partition c).

(** mod.rs:81-87 *)
Definition new_group (id p : string) : file_group :=
  {| fg_id := id; fg_partition := p; fg_slices := [] |}.
Definition with_slices (g : file_group) (m : slice_map) : file_group :=
  {| fg_id := fg_id g; fg_partition := fg_partition g; fg_slices := m |}.

Definition slices_get (k : string) (m : slice_map) : option slice_entry := sget ekey scmp k m.
Definition slices_put (k : string) (s : file_slice) (m : slice_map) : slice_map := sput ekey scmp (k, s) m.
(** update the slice at key [k] in place ([get_mut]) *)
Definition slices_update (k : string) (f : file_slice -> file_slice) (m : slice_map) : slice_map :=
  supdate ekey scmp k (fun e => (fst e, f (snd e))) m.

(** The mutating methods take [&mut self]: the model returns the receiver after the call (also when
    the call fails) together with the result. *)

(** mod.rs:125-139 [FileGroup::add_base_file] *)
Definition add_base_file (g : file_group) (b : base_file) : file_group * outcome unit :=
  match slices_get (bf_commit b) (fg_slices g) with
  | Some _ => (g, Err EFileGroup)
  | None => (with_slices g (slices_put (bf_commit b) (new_slice b (fg_partition g)) (fg_slices g)), Ok tt)
  end.

(** mod.rs:161-172 [FileGroup::add_log_file] *)
Definition add_log_file (g : file_group) (l : log_file) : file_group * outcome unit :=
  match slices_get (lf_base_commit l) (fg_slices g) with
  | Some _ => (with_slices g (slices_update (lf_base_commit l)
                 (fun s => with_logs s (log_insert l (fs_logs s))) (fg_slices g)), Ok tt)
  | None => (g, Err EFileGroup)
  end.

(** a [for] loop over [&mut self] calls, stopping at the first error *)
Fixpoint add_each {A} (add : file_group -> A -> file_group * outcome unit) (g : file_group) (l : list A)
  : file_group * outcome unit :=
  match l with
  | [] => (g, Ok tt)
  | x :: xs =>
      match add g x with
      | (g', Ok _) => add_each add g' xs
      | (g', Err e) => (g', Err e)
      | (g', Panic) => (g', Panic)
      end
  end.
(** mod.rs:142-150, 175-183 *)
Definition add_base_files := add_each add_base_file.
Definition add_log_files := add_each add_log_file.

(** mod.rs:118-122, 153-156 *)
Definition add_base_file_from_name (g : file_group) (name : string) : file_group * outcome unit :=
  match base_file_from_str name with
  | Ok b => add_base_file g b
  | Err e => (g, Err e)
  | Panic => (g, Panic)
  end.
Definition add_log_file_from_name (g : file_group) (name : string) : file_group * outcome unit :=
  match log_file_from_str name with
  | Ok l => add_log_file g l
  | Err e => (g, Err e)
  | Panic => (g, Panic)
  end.

(** mod.rs:90-98 [FileGroup::new_with_base_file_name] *)
Definition new_with_base_file_name (id p name : string) : outcome file_group :=
  match add_base_file_from_name (new_group id p) name with
  | (g, Ok _) => Ok g
  | (_, Err e) => Err e
  | (_, Panic) => Panic
  end.

(** one iteration of mod.rs:107-115 *)
Definition merge_entry (g : file_group) (e : slice_entry) : file_group * outcome unit :=
  match slices_get (fst e) (fg_slices g) with
  | Some (_, existing) =>
      match merge_slice existing (snd e) with
      | Ok s => (with_slices g (slices_update (fst e) (fun _ => s) (fg_slices g)), Ok tt)
      | Err er => (g, Err er)
      | Panic => (g, Panic)
      end
  | None => (with_slices g (slices_put (fst e) (snd e) (fg_slices g)), Ok tt)
  end.
(** mod.rs:100-116 [FileGroup::merge] *)
Definition merge_group (g other : file_group) : file_group * outcome unit :=
  if negb (fg_eqb g other) then (g, Err EFileGroup)
  else add_each merge_entry g (fg_slices other).

(** mod.rs:187-194 [FileGroup::get_file_slice_as_of] *)
Definition entry_as_of (g : file_group) (t : string) : option slice_entry :=
  slast_le ekey scmp t (fg_slices g).
Definition get_file_slice_as_of (g : file_group) (t : string) : option file_slice :=
  option_map snd (entry_as_of g t).
