(** Specification of queries that run while writers add files and a cleaner removes files. *)
From Verif Require Import Base Str M_FileGroup M_Builder M_Expr M_Storage S_FileGroup S_Builder S_Listing S_Expr S_Table S_Storage M_Objects S_Objects.
Local Open Scope string_scope.

(** The base file [b] is needed as of [t] no more: a newer base file of its file group, of [t] or before, is among the
    objects [stays] in its directory. *)
Definition superseded (stays : list object) (table dir : list string) (format t : string) (b : base_file) : Prop :=
  exists name o b', file_in stays table dir name o /\ ~ marker_name name /\ base_named format name /\ base_file_of name (Some (new_meta name (o_size o))) = Ok b'
    /\ bf_file_id b' = bf_file_id b /\ slt (bf_commit b) (bf_commit b') /\ sle (bf_commit b') t.

(** The objects [stays] are there at the moment when the store has the objects [objs].  All others may come and go at any
    time: log files; base files of commits later than [t]; base files that are superseded; base files of file groups in
    [dropped].  No directory is made inside a data directory. *)
Definition moves_around (stays : list object) (table : list string) (format t : string) (dropped : string * string -> Prop) (objs : list object) : Prop :=
  incl stays objs
  /\ forall dir name o, Forall legal dir -> file_in objs table dir name o -> ~ In o stays ->
       (forall b, ~ marker_name name -> base_named format name -> base_file_of name (Some (new_meta name (o_size o))) = Ok b ->
          slt t (bf_commit b) \/ superseded stays table dir format t b \/ dropped (join "/" dir, bf_file_id b))
       /\ forall d, Forall legal d -> data_directory stays table (join "/" d) -> forall below, dir = (d ++ below)%list -> below = [].
