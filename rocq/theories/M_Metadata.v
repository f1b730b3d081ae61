(** Model of the metadata calls of timeline/mod.rs that list and read instants afresh. *)
From Verif Require Import Base Str M_Utf8 M_Time M_Instant M_Timeline M_FileGroup M_Builder.
Local Open Scope string_scope.

(** timeline/mod.rs:175-196 [get_completed_clustering_commits]: the replacecommits are listed, then their
    metadata is read one by one (M_Builder [clustering_of]) *)
Definition get_completed_clustering_commits (local_to_utc : ndt -> option ndt) (sort_unstable : list instant -> list instant)
    (read_json : string -> outcome (list (string * json))) (tz : string) (names : list string) (desc : bool) : outcome (list instant) :=
  let* rs := get_completed_replacecommits local_to_utc sort_unstable tz names desc in
  clustering_of read_json rs.

(** timeline/mod.rs:207-212 [get_instant_metadata_in_json]; [read]: [Storage::get_file_data] *)
Definition get_instant_metadata_in_json (read : string -> outcome string) (i : instant) : outcome string :=
  let* bytes := read (instant_relative_path i) in
  if utf8_valid bytes then Ok bytes else Err ETimeline.
