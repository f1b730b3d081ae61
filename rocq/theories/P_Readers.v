(** C84: the readers of a table read the storage of the table. *)
From Verif Require Import Base Str M_Utf8 M_Time M_Instant M_Timeline M_FileGroup M_Builder M_Listing M_Expr M_Log M_Config M_Reader M_Table M_Storage M_Objects M_Open
  S_Time S_Timeline S_Config S_Table S_Storage S_Objects S_Open S_History S_Readers L_Base L_Str L_Timeline L_Config L_Open L_Records L_Readers E_Scan E_Open.
Local Open Scope string_scope.

(** A table is opened with storage options that are not options of the table.  A reader that it makes for reading
    options, whatever order maps are visited in, opens the very storage that the table was read from, and its options
    are those given and else those of the table. *)
Theorem C84_table_reader_partial : forall iter env parse stores global local_to_utc sort_unstable b tb u objs, visits_all iter -> by_value stores ->
  storage_only (b_storage b) -> build iter env parse stores global local_to_utc sort_unstable b = Ok (tb, u, objs) ->
  forall iter' opts, visits_all iter' -> reading_options opts ->
  exists hudi, table_reader iter' parse stores tb opts = Ok (hudi, u, objs) /\ forall k, oget k hudi = first_given [last_value opts k; oget k (t_configs tb)].
Proof.
  intros iter env parse stores global L f b tb u objs VA BV SO B it opts VI RO.
  exact (table_reader_is parse stores BV iter env global L f b tb u objs it opts B (built_storage_only iter VA env parse stores global L f b tb u objs SO B) RO VI).
Qed.
Print Assumptions C84_table_reader_partial.

(** A reader made without a table, from its URI, opens the same storage if it is given the value of every storage
    option that the table has, and no other. *)
Theorem C84_uri_reader_partial : forall iter env parse stores global local_to_utc sort_unstable b tb u objs, visits_all iter -> by_value stores ->
  storage_only (b_storage b) -> build iter env parse stores global local_to_utc sort_unstable b = Ok (tb, u, objs) ->
  forall iter' uri opts, visits_all iter' -> one_per_key opts -> oget "hoodie.base.path" (t_configs tb) = Some uri -> oget "hoodie.base.path" opts = None ->
  (forall k, (forall r, k <> "hoodie." ++ r) -> oget k opts = oget k (t_storage tb)) ->
  exists hudi, uri_reader iter' parse stores uri opts = Ok (hudi, u, objs).
Proof.
  intros iter env parse stores global L f b tb u objs VA BV SO B it uri opts VI D BP NB SS. unfold uri_reader, reader_new. unfold table_key.
  rewrite (uri_storage parse stores BV it tb opts uri VI D (built_storage_only iter VA env parse stores global L f b tb u objs SO B) BP NB),
    (build_storage parse stores iter env global L f b tb u objs B); [cbn [bind]; eauto|].
  intros k K. apply SS. intros r E. assert (H : is_hudi k = true) by (apply hudi_name; eauto). congruence.
Qed.
Print Assumptions C84_uri_reader_partial.

(** ... so not if the table found its credentials in the environment: a reader made from the same URI and the same
    options does not look there, and may fail. *)
Theorem C84_environment_refuted : exists env parse stores b tb u objs e, by_value stores /\ storage_only (b_storage b)
  /\ build (fun m => m) env parse stores (fun _ => Err EStorage) sx_local isort b = Ok (tb, u, objs)
  /\ oget "hoodie.base.path" (t_configs tb) = Some (b_base b)
  /\ uri_reader (fun m => m) parse stores (b_base b) (b_options b) = Err e.
Proof.
  exists [("AWS_X", "y"); ("HOME", "h")], bx_parse, (fun _ o => match oget "aws_x" o with Some _ => Ok bx_objs | None => Err EStorage end), bx_builder.
  do 4 eexists. split; [intros v a c H; now rewrite H|]. split; [split; [constructor|intros k v r []]|]. split; [vm_compute; reflexivity|]. split; vm_compute; reflexivity.
Qed.
Print Assumptions C84_environment_refuted.

(** An option of the table among the storage options, which the builder accepts, goes to every reader in place of the
    table's own: the reader of a table can read another table. *)
Theorem C84_mixed_refuted : exists env parse stores b tb u objs hudi u', by_value stores
  /\ build (fun m => m) env parse stores (fun _ => Err EStorage) sx_local isort b = Ok (tb, u, objs)
  /\ oget "hoodie.base.path" (t_configs tb) = Some (b_base b)
  /\ table_reader (fun m => m) parse stores tb [] = Ok (hudi, u', objs) /\ u_path u' <> u_path u.
Proof.
  exists [], bx_parse, (fun _ _ => Ok bx_objs), {| b_base := "file:///data/t/"; b_hudi := []; b_storage := [("hoodie.base.path", "file:///data/other")]; b_options := [] |}.
  do 5 eexists. split; [intros v a c H; reflexivity|]. split; [vm_compute; reflexivity|]. split; [vm_compute; reflexivity|]. split; [vm_compute; reflexivity|]. discriminate.
Qed.
Print Assumptions C84_mixed_refuted.

(** ** The hypotheses are met *)
(** The table of C73, whose storage options come from the options and the environment: readers of the table read its
    objects, and so does one made from the URI and both options. *)
Example C84_case : visits_all (fun m => m) /\ by_value (fun _ _ => Ok bx_objs) /\ storage_only (b_storage bx_builder)
  /\ bx_build bx_objs = Ok (bx_table, sx_base, bx_objs)
  /\ reading_options [("hoodie.read.file_group.end_timestamp", "20240101000000000")]
  /\ (exists hudi, table_reader (@rev _) bx_parse (fun _ _ => Ok bx_objs) bx_table [("hoodie.read.file_group.end_timestamp", "20240101000000000")] = Ok (hudi, sx_base, bx_objs)
      /\ oget "hoodie.read.file_group.end_timestamp" hudi = Some "20240101000000000" /\ oget "hoodie.table.type" hudi = Some "COPY_ON_WRITE")
  /\ oget "hoodie.base.path" (t_configs bx_table) = Some "file:///data/t/"
  /\ (forall k, (forall r, k <> "hoodie." ++ r) -> oget k [("aws_x", "y"); ("hoodie.read.x", "z"); ("region", "r")] = oget k (t_storage bx_table))
  /\ exists hudi, uri_reader (@rev _) bx_parse (fun _ _ => Ok bx_objs) "file:///data/t/" [("aws_x", "y"); ("hoodie.read.x", "z"); ("region", "r")] = Ok (hudi, sx_base, bx_objs).
Proof.
  split; [intros m; reflexivity|]. split; [intros v a c H; reflexivity|]. split; [split; [constructor|intros k v r []]|]. split; [exact bx_built|].
  split; [intros k v [[= <- _]|[]]; split; [now exists "read.file_group.end_timestamp"|discriminate]|].
  split; [eexists; split; [vm_compute; reflexivity|split; vm_compute; reflexivity]|]. split; [vm_compute; reflexivity|].
  split; [|eexists; vm_compute; reflexivity].
  intros k N. change (t_storage bx_table) with [("region", "r"); ("aws_x", "y")]. cbn [oget].
  destruct (String.eqb_spec "hoodie.read.x" k) as [E|E]; [elim (N "read.x"); now rewrite <- E|].
  destruct (String.eqb_spec "aws_x" k) as [ <- |E1]; [reflexivity|]. reflexivity.
Qed.
