(** Specification of partition listing, directory trees and snapshots of a file system view. *)
From Verif Require Import Base Str M_FileGroup M_Builder M_Listing S_FileGroup S_Builder.
Local Open Scope string_scope.

(** ** Files of a partition *)
(** Partition metadata files and checksum files. *)
Definition marker_name (n : string) : Prop :=
  (exists r, n = ".hoodie_partition_metadata" ++ r) \/ (exists r, n = r ++ ".crc").
(** Names with the extension of the base file format. *)
Definition base_named (format n : string) : Prop := exists r, n = r ++ "." ++ format.

(** The base files and log files that a directory listing stands for. *)
Definition base_listed (format : string) (l : list file_meta) (m : file_meta) (b : base_file) : Prop :=
  In m l /\ ~ marker_name (fm_name m) /\ base_named format (fm_name m) /\ base_file_of (fm_name m) (Some m) = Ok b.
Definition log_listed (format : string) (l : list file_meta) (m : file_meta) (g : log_file) : Prop :=
  In m l /\ ~ marker_name (fm_name m) /\ ~ base_named format (fm_name m) /\ log_file_of (fm_name m) (Some m) = Ok g.

(** A listing that can be grouped: base-format names parse, no two base files share id and commit,
    log files of a listed id have their base file. *)
Definition listing_ok (format : string) (l : list file_meta) : Prop :=
  (forall m, In m l -> ~ marker_name (fm_name m) -> base_named format (fm_name m) ->
     exists b, base_file_of (fm_name m) (Some m) = Ok b)
  /\ (forall m1 m2 b1 b2, base_listed format l m1 b1 -> base_listed format l m2 b2 ->
        bf_file_id b1 = bf_file_id b2 -> bf_commit b1 = bf_commit b2 -> m1 = m2)
  /\ (forall m g m1 b1, log_listed format l m g -> base_listed format l m1 b1 -> bf_file_id b1 = lf_file_id g ->
        exists m2 b2, base_listed format l m2 b2 /\ bf_file_id b2 = lf_file_id g /\ bf_commit b2 = lf_base_commit g).

(** The groups of a listing. *)
Definition groups_of_listing (format partition : string) (l : list file_meta) (gs : list file_group) : Prop :=
  NoDup (map fg_id gs)
  /\ (forall g, In g gs -> fg_partition g = partition)
  /\ (forall id, In id (map fg_id gs) <-> exists m b, base_listed format l m b /\ bf_file_id b = id)
  /\ (forall g, In g gs ->
       (forall c n, has_base g c n <-> exists m b, base_listed format l m b /\ bf_file_id b = fg_id g
          /\ bf_commit b = c /\ base_file_name b = n)
       /\ (forall c v t, has_log g c v t <-> exists m x, log_listed format l m x /\ lf_file_id x = fg_id g
          /\ lf_base_commit x = c /\ lf_version x = v /\ lf_write_token x = t)).

(** ** Directory trees *)
Inductive tree := Dir (files : list file_meta) (subs : list (string * tree)).
Definition subs_of (t : tree) : list (string * tree) := let (_, s) := t in s.
Definition files_of (t : tree) : list file_meta := let (f, _) := t in f.

(** The directory reached from [t] along a list of names. *)
Inductive reaches : tree -> list string -> tree -> Prop :=
| re_here : forall t, reaches t [] t
| re_down : forall t n s p u, In (n, s) (subs_of t) -> reaches s p u -> reaches t (n :: p) u.

(** Directory names are not empty and contain no separator; siblings have different names. *)
Inductive wf_tree : tree -> Prop :=
| wf_dir : forall fs subs,
    NoDup (map fst subs) ->
    (forall n s, In (n, s) subs -> n <> "" /\ has_char "/" n = false) ->
    (forall n s, In (n, s) subs -> wf_tree s) ->
    wf_tree (Dir fs subs).

(** A leaf directory: no subdirectory. *)
Definition leaf_path (root : tree) (p : list string) : Prop := exists t, reaches root p t /\ subs_of t = [].

(** [list_dirs] answers from the tree: the names of the subdirectories of the directory at the path. *)
Definition serves_dirs (root : tree) (list_dirs : string -> outcome (list string)) : Prop :=
  forall p t, reaches root p t -> list_dirs (join "/" p) = Ok (map fst (subs_of t)).

(** The data partitions of a table: leaf directories under a top-level directory that is not a
    metadata directory of a lake format. *)
Definition partition_dir (root : tree) (path : string) : Prop :=
  exists top p, leaf_path root (top :: p)
    /\ top <> ".hoodie" /\ top <> "_delta_log" /\ top <> "metadata"
    /\ path = join "/" (top :: p).

(** ** Snapshots *)
(** The newest slice of a group at or before [t]. *)
Definition newest_slice (g : file_group) (t : string) (s : file_slice) : Prop :=
  In s (slices g) /\ sle (bf_commit (fs_base s)) t
  /\ forall s', In s' (slices g) -> sle (bf_commit (fs_base s')) t -> sle (bf_commit (fs_base s')) (bf_commit (fs_base s)).

(** Two answers agree: both fail, or both succeed with the same slices in some order. *)
Definition same_answer {A} (a b : outcome (list A)) : Prop :=
  match a, b with
  | Ok l1, Ok l2 => Permutation l1 l2
  | Ok _, _ | _, Ok _ => False
  | _, _ => True
  end.

(** The slice of a file group of partition [p] that a snapshot as of [t] shows, in terms of the files
    listed in [p]: the base file is the newest one of its file id at or before [t], the log files are
    those written for that base file. *)
Definition shows_newest (format : string) (listed : list file_meta) (p t : string) (s : file_slice) : Prop :=
  exists m b, base_listed format listed m b
    /\ fs_partition s = p
    /\ bf_file_id (fs_base s) = bf_file_id b /\ base_file_name (fs_base s) = base_file_name b
    /\ bf_commit (fs_base s) = bf_commit b /\ sle (bf_commit b) t
    /\ (forall m' b', base_listed format listed m' b' -> bf_file_id b' = bf_file_id b -> sle (bf_commit b') t ->
          sle (bf_commit b') (bf_commit b))
    /\ (forall v w, (exists l, In l (fs_logs s) /\ lf_version l = v /\ lf_write_token l = w)
         <-> exists m' x, log_listed format listed m' x /\ lf_file_id x = bf_file_id b
               /\ lf_base_commit x = bf_commit b /\ lf_version x = v /\ lf_write_token x = w)
    /\ (forall l, In l (fs_logs s) -> exists m', log_listed format listed m' l /\ lf_file_id l = bf_file_id b /\ lf_base_commit l = bf_commit b).

(** The partitions a query looks at. *)
Definition relevant (partitioned : bool) (root : tree) (q : query) (p : string) : Prop :=
  q_include q p = true /\ if partitioned then partition_dir root p else p = "".

Definition slice_id (s : file_slice) : string * string := (fs_partition s, bf_file_id (fs_base s)).

(** A snapshot: what a query must return. *)
Definition snapshot_of (list_files : string -> outcome (list file_meta)) (format : string) (partitioned : bool)
    (root : tree) (q : query) (ss : list file_slice) : Prop :=
  (forall s, In s ss -> exists p listed, relevant partitioned root q p /\ list_files p = Ok listed
     /\ shows_newest format listed p (q_time q) s /\ ~ In (slice_id s) (map ident (q_excluded q)))
  /\ (forall p, relevant partitioned root q p -> exists listed, list_files p = Ok listed
       /\ forall m b, base_listed format listed m b -> sle (bf_commit b) (q_time q) ->
            ~ In (p, bf_file_id b) (map ident (q_excluded q)) -> In (p, bf_file_id b) (map slice_id ss))
  /\ NoDup (map slice_id ss).

(** A storage whose directories are those of a tree. *)
Fixpoint walk (t : tree) (p : list string) : option tree :=
  match p with
  | [] => Some t
  | n :: r => match find (fun e => String.eqb (fst e) n) (subs_of t) with Some (_, s) => walk s r | None => None end
  end.
Definition tree_dirs (root : tree) (path : string) : outcome (list string) :=
  match walk root (if String.eqb path "" then [] else split "/" path) with
  | Some t => Ok (map fst (subs_of t))
  | None => Err EStorage
  end.
