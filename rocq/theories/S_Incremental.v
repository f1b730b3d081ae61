(** Specification of the records that changed between two times. *)
From Verif Require Import Base Str M_Time M_Instant M_FileGroup M_Builder M_Listing M_Log M_Config M_Reader M_Table
  S_Time S_FileGroup S_Builder S_Listing S_Log S_Reader S_Table S_History.
Local Open Scope string_scope.

(** The changes after [start] and up to [e]: for every key with a version committed in that time its newest
    version as of [e], and no other record. *)
Definition changed_between (k p s : nat) (g : group) (start e : string) (out : list (list cell)) : Prop :=
  NoDup (map (key_at k) out)
  /\ (forall x r, In (x, r) (g_versions g) -> slt start x -> sle x e -> exists r', In r' out /\ key_at k r' = key_at k r)
  /\ (forall r, In r out -> (exists x, In (x, r) (g_versions g) /\ slt start x /\ sle x e)
        /\ forall x r', In (x, r') (g_versions g) -> sle x e -> key_at k r' = key_at k r -> ~ newer p s r' r).

(** Every row carries the time of the write that committed it. *)
Definition stamped (ct : nat) (g : group) : Prop := forall x r, In (x, r) (g_versions g) -> nth ct r Null = VText x.
(** Later versions of a record are newer: no late events. *)
Definition later_is_newer (k p s : nat) (g : group) (e : string) : Prop :=
  forall x a y b, In (x, a) (g_versions g) -> In (y, b) (g_versions g) -> slt x y -> sle y e -> key_at k a = key_at k b -> newer p s b a.

(** Commits with the time of their name, in UTC. *)
Definition dated (i : instant) : Prop :=
  exists c, valid_civil c /\ c_ms c <> None /\ i_timestamp i = render c /\ denotes_millis c (i_epoch i).
(** The completed commits after [start] and up to [e], with their metadata. *)
Definition commit_between (read : string -> outcome (list (string * json))) (commits : list instant) (start e : string)
    (i : instant) (md : list (string * json)) : Prop :=
  In i commits /\ i_state i = Completed /\ slt start (i_timestamp i) /\ sle (i_timestamp i) e /\ read (".hoodie/" ++ file_name i) = Ok md.

(** The commits of the window record what they write to a file group:
    - every base file, and every log file with data of a write that committed;
    - with it the newest base file at that time;
    - only files that are there;
    - and if a log file has data of a failed write too, also one with its rollback. *)
Section Recorded.
Variable read : string -> outcome (list (string * json)).
Variable commits : list instant.
Variable format part id : string.
Variable listed : list file_meta.
Variable contents : string -> list (wblock * list record_batch).
Variable g : group.
Variable start e : string.
Notation commit := (commit_between read commits start e).
Notation base_of := (base_of format id listed).
Notation log_of := (log_of format id listed).

Definition log_named (fm : file_meta) (c : string) : Prop :=
  exists i md l, commit i md /\ names_log_file md part id c l /\ log_file_name l = fm_name fm.
Record recorded : Prop := {
  rc_bases : forall c, In c (map fst (g_bases g)) -> slt start c -> sle c e -> exists i md n, commit i md /\ names_base md part id c n;
  rc_blocks : forall c x rows fm w bs, In (c, x, rows) (g_blocks g) -> ~ In x (g_failed g) -> slt start x -> sle x e ->
    log_of fm c -> In (w, bs) (contents (fm_name fm)) -> at_instant w x -> log_named fm c;
  rc_newest : forall i md c n b, commit i md -> names_base md part id c n -> In b (map fst (g_bases g)) -> sle b (i_timestamp i) -> sle b c;
  rc_base_files : forall i md c n, commit i md -> names_base md part id c n -> exists m, base_of m c /\ fm_name m = n;
  rc_log_files : forall i md c l, commit i md -> names_log_file md part id c l -> exists m, log_of m c /\ fm_name m = log_file_name l;
  rc_failed : forall fm c w bs x, log_named fm c -> In (w, bs) (contents (fm_name fm)) -> at_instant w x -> In x (g_failed g) -> slt start x -> sle x e ->
    exists fm' w' bs' y, log_named fm' c /\ In (w', bs') (contents (fm_name fm')) /\ at_instant w' y /\ rolls_back w' x /\ slt start y /\ sle y e
}.
End Recorded.
