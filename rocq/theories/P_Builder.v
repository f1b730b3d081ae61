(** Property theorems C09-C11: file groups written and replaced by commits. *)
From Verif Require Import Base Str M_Time M_Instant M_Timeline M_FileGroup M_Builder
  S_Time S_Timeline S_FileGroup S_Builder L_Builder.
From Coq Require Import Sorting.Sorted.
Local Open Scope string_scope.

(** Concrete metadata for the examples. *)
Definition ex_stat (id base : string) (logs : list string) : json :=
  JObj [("fileId", JStr id); ("baseFile", JStr base); ("logFiles", JArr (map JStr logs))].
Definition ex_md1 : list (string * json) :=
  [("partitionToWriteStats", JObj [("p", JArr [ex_stat "a" "a_0_1.parquet" [".a_1.log.1_0"]; ex_stat "b" "b_0_1.parquet" []])])].
Definition ex_md2 : list (string * json) :=
  [("partitionToWriteStats", JObj [("p", JArr [JObj [("fileId", JStr "c"); ("path", JStr "p/c_0_2.parquet")]])]);
   ("partitionToReplaceFileIds", JObj [("p", JArr [JStr "a"]); ("q", JArr [JStr "z"])])].
Definition ex_i1 := {| i_timestamp := "20240101000000"; i_action := Commit; i_state := Completed; i_epoch := 1704067200000 |}.
Definition ex_i2 := {| i_timestamp := "20240102000000"; i_action := ReplaceCommit; i_state := Completed; i_epoch := 1704153600000 |}.
Definition ex_read (path : string) : outcome (list (string * json)) :=
  if String.eqb path ".hoodie/20240101000000.commit" then Ok ex_md1
  else if String.eqb path ".hoodie/20240102000000.replacecommit" then Ok ex_md2 else Err EStorage.
Definition ex_tz (d : ndt) : option ndt := Some d.
Lemma ex_sorted : StronglySorted instant_le [ex_i1; ex_i2].
Proof. repeat constructor; unfold instant_le; cbn; discriminate. Qed.

(** ** C09 *)
Theorem C09_replaced_exactly_up_to : forall L read tz commits ts dt gs, StronglySorted instant_le commits ->
  parse_datetime L ts tz = Ok dt ->
  get_replaced_file_groups_as_of L read tz commits ts = Ok gs ->
  NoDup (map ident gs)
  /\ forall p id, In (p, id) (map ident gs) <->
       exists i md, commit_in read commits None (Some (epoch_millis dt)) i md
         /\ i_action i = ReplaceCommit /\ replaces md p id.
Proof. exact replaced_as_of. Qed.
Print Assumptions C09_replaced_exactly_up_to.
Example C09_example :
  (let* gs := get_replaced_file_groups_as_of ex_tz ex_read "utc" [ex_i1; ex_i2] "20240102000000" in Ok (map ident gs))
    = Ok [("p", "a"); ("q", "z")]
  /\ get_replaced_file_groups_as_of ex_tz ex_read "utc" [ex_i1; ex_i2] "20240101235959" = Ok [].
Proof. split; vm_compute; reflexivity. Qed.

(** It only fails on unreadable or malformed replacecommit metadata at or before the time. *)
Theorem C09_succeeds_on_readable_metadata : forall L read tz commits ts dt, StronglySorted instant_le commits ->
  parse_datetime L ts tz = Ok dt ->
  (forall i, In i commits -> i_state i = Completed -> i_action i = ReplaceCommit -> (i_epoch i <= epoch_millis dt)%Z ->
     exists md, read (".hoodie/" ++ file_name i) = Ok md /\ replace_metadata_ok md) ->
  exists gs, get_replaced_file_groups_as_of L read tz commits ts = Ok gs.
Proof. exact replaced_as_of_succeeds. Qed.
Print Assumptions C09_succeeds_on_readable_metadata.
Example C09_metadata_example : replace_metadata_ok ex_md2.
Proof.
  exists [("p", JArr [JStr "a"]); ("q", JArr [JStr "z"])]. split; [reflexivity|].
  intros p v [E|[E|[]]]; injection E as <- <-; [exists ["a"]|exists ["z"]]; reflexivity.
Qed.

Theorem C09_replaced_set_grows : forall L read tz commits t1 t2 d1 d2 g1 g2, StronglySorted instant_le commits ->
  parse_datetime L t1 tz = Ok d1 -> parse_datetime L t2 tz = Ok d2 -> (epoch_millis d1 <= epoch_millis d2)%Z ->
  get_replaced_file_groups_as_of L read tz commits t1 = Ok g1 ->
  get_replaced_file_groups_as_of L read tz commits t2 = Ok g2 ->
  incl (map ident g1) (map ident g2).
Proof. exact replaced_grows. Qed.
Print Assumptions C09_replaced_set_grows.

(** ** C10 *)
Theorem C10_written_and_not_replaced : forall L read order, (forall n l, Permutation l (order n l)) ->
  forall tz commits start stop gs, StronglySorted instant_le commits ->
  get_file_groups_between L read order tz commits start stop = Ok gs ->
  exists st en,
    opt_traverse (fun ts => parse_datetime L ts tz) start = Ok st
    /\ opt_traverse (fun ts => parse_datetime L ts tz) stop = Ok en
    /\ NoDup (map ident gs)
    /\ (forall p id, In (p, id) (map ident gs) <->
          (exists i md stat, commit_in read commits (option_map epoch_millis st) (option_map epoch_millis en) i md
             /\ writes md p stat /\ stat_file_id stat id)
          /\ ~ (exists i md, commit_in read commits (option_map epoch_millis st) (option_map epoch_millis en) i md
             /\ i_action i = ReplaceCommit /\ replaces md p id))
    /\ (forall g, In g gs ->
          (forall c n, has_base g c n <-> exists i md built h,
             commit_in read commits (option_map epoch_millis st) (option_map epoch_millis en) i md
             /\ build_file_groups md = Ok built /\ In h built /\ ident h = ident g /\ has_base h c n)
          /\ (forall c v t, has_log g c v t <-> exists i md built h,
             commit_in read commits (option_map epoch_millis st) (option_map epoch_millis en) i md
             /\ build_file_groups md = Ok built /\ In h built /\ ident h = ident g /\ has_log h c v t)).
Proof. exact groups_between. Qed.
Print Assumptions C10_written_and_not_replaced.
Example C10_example :
  (let* gs := get_file_groups_between ex_tz ex_read (fun _ l => rev l) "utc" [ex_i1; ex_i2] None None in Ok (map ident gs))
    = Ok [("p", "c"); ("p", "b")]
  /\ (let* gs := get_file_groups_between ex_tz ex_read (fun _ l => l) "utc" [ex_i1; ex_i2] (Some "20240101000000") None in
      Ok (map ident gs)) = Ok [("p", "c")]
  /\ (forall l : list file_group, Permutation l (rev l)).
Proof. split; [vm_compute; reflexivity|]. split; [vm_compute; reflexivity|]. intros l. apply Permutation_rev. Qed.

(** ** C11 *)
(** The value of a key of a JSON object, which the statements below use: it is that of its first entry, and a key without
    entry has none. *)
Theorem C11_fields : forall k m v,
  (jget k m = Some v <-> exists a b, m = (a ++ (k, v) :: b)%list /\ ~ In k (map fst a)) /\ (jget k m = None <-> ~ In k (map fst m))
  /\ (forall j, vget k j = Some v <-> exists m', j = JObj m' /\ jget k m' = Some v).
Proof.
  intros k m v. split; [|split].
  - split.
    + induction m as [|[k' w] m IH]; cbn [jget]; [discriminate|]. destruct (String.eqb_spec k k') as [ <- |N].
      * intros [= ->]. exists [], m. split; [reflexivity|intros []].
      * intros H. destruct (IH H) as [a [b [-> NI]]]. exists ((k', w) :: a), b. split; [reflexivity|]. cbn. intros [E|E]; [congruence|now apply NI].
    + intros [a [b [-> N]]]. induction a as [|[k' w] a IH]; cbn [app jget].
      * now rewrite String.eqb_refl.
      * cbn in N. destruct (String.eqb_spec k k') as [ <- |N']; [exfalso; apply N; now left|]. apply IH. intros X. apply N. now right.
  - induction m as [|[k' w] m IH]; cbn; [tauto|]. destruct (String.eqb_spec k k') as [ <- |N]; [split; [discriminate|intros X; exfalso; apply X; now left]|]. rewrite IH. split; [intros X [E|E]; [congruence|now apply X]|intros X E; apply X; now right].
  - intros j. split; [destruct j as [| | | | |m']; try discriminate; intros H; exists m'; auto|]. intros [m' [-> H]]. exact H.
Qed.
Print Assumptions C11_fields.
Example C11_fields_case : jget "a" [("b", JNull); ("a", JStr "x"); ("a", JStr "y")] = Some (JStr "x") /\ jget "c" [("b", JNull)] = None.
Proof. split; reflexivity. Qed.

(** False in general: of two write stats of one partition with the same file id only the first is kept. *)
Definition ex_double : list (string * json) :=
  [("partitionToWriteStats", JObj [("p", JArr [ex_stat "a" "a_0_1.parquet" [".a_1.log.1_0"]; ex_stat "a" "a_0_1.parquet" [".a_1.log.2_0"]])])].
Theorem C11_every_stat_represented_refuted : exists md gs stat,
  build_file_groups md = Ok gs /\ writes md "p" stat
  /\ names_files stat "a" "a_0_1.parquet" [".a_1.log.2_0"]
  /\ forall g, In g gs -> ~ has_log g "1" "2" "0".
Proof.
  exists ex_double. eexists. exists (ex_stat "a" "a_0_1.parquet" [".a_1.log.2_0"]).
  split; [vm_compute; reflexivity|]. split; [|split].
  - eexists. eexists. split; [reflexivity|]. split; [left; reflexivity|]. right. left. reflexivity.
  - apply nf_delta; reflexivity.
  - intros g [<-|[]] [s [l [Hs [Hc [Hl [Hv _]]]]]]. cbn in Hs. destruct Hs as [<-|[]].
    cbn in Hl. destruct Hl as [<-|[]]. discriminate Hv.
Qed.
Print Assumptions C11_every_stat_represented_refuted.

(** Proved: the file group is always there; with the files of a stat when no other stat of that partition has the file id. *)
Theorem C11_every_stat_represented_partial : forall md gs p stat, build_file_groups md = Ok gs -> writes md p stat ->
  (forall stat' id, writes md p stat' -> stat_file_id stat id -> stat_file_id stat' id -> stat' = stat) ->
  exists id base logs g b, names_files stat id base logs
    /\ In g gs /\ fg_id g = id /\ fg_partition g = p
    /\ base_file_from_str base = Ok b /\ has_base g (bf_commit b) (base_file_name b)
    /\ forall n, In n logs -> exists l, log_file_from_str n = Ok l
         /\ has_log g (bf_commit b) (lf_version l) (lf_write_token l).
Proof. exact stats_represented. Qed.
Print Assumptions C11_every_stat_represented_partial.

Theorem C11_identities_exact : forall md gs, build_file_groups md = Ok gs ->
  NoDup (map ident gs)
  /\ forall p id, In (p, id) (map ident gs) <-> exists stat, writes md p stat /\ stat_file_id stat id.
Proof. exact build_identities. Qed.
Print Assumptions C11_identities_exact.

(** Which metadata is accepted. *)
Theorem C11_accepted_iff : forall md,
  ((exists gs, build_file_groups md = Ok gs) <->
   exists obj, jget "partitionToWriteStats" md = Some (JObj obj)
     /\ forall p v, In (p, v) obj -> exists stats, v = JArr stats /\ forall stat, In stat stats -> acceptable_stat stat).
Proof. exact build_accepts_iff. Qed.
Print Assumptions C11_accepted_iff.
Example C11_example : (let* gs := build_file_groups ex_md1 in Ok (map ident gs)) = Ok [("p", "b"); ("p", "a")].
Proof. vm_compute. reflexivity. Qed.

(** Consequence: a stat with an empty base file name (a log-only write) makes the whole document rejected. *)
Theorem C11_log_only_stat_rejected : forall md p stat,
  writes md p stat -> vget "baseFile" stat = Some (JStr "") -> forall gs, build_file_groups md <> Ok gs.
Proof. exact empty_base_rejected. Qed.
Print Assumptions C11_log_only_stat_rejected.
