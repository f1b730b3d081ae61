(** C48-C50: Avro log blocks become Arrow columns with the same values. *)
From Verif Require Import Base Str M_Avro S_Avro L_Base L_Avro L_Batch L_ArrowSchema E_Avro S_AvroCells L_AvroCells.
Local Open Scope string_scope.

(** Rows with list columns (the lists may be null and their items may be null; booleans only in lists without
    nulls) are read, and reading row [i] of column [j] back gives the list of that row, or null. *)
Theorem C48_lists_partial : forall fc fs vs, valid (ScRecord fs) -> fs <> [] -> (forall n al s, In (n, al, s) fs -> scalar_column s \/ list_column s) ->
  Forall (conforms (ScRecord fs)) vs ->
  exists dfs cols, read_batch fc (ScRecord fs) vs = Ok (dfs, cols) /\
    forall i r j n v, nth_error vs i = Some (AvRecord r) -> nth_error r j = Some (n, v) ->
      exists df col, nth_error dfs j = Some df /\ nth_error cols j = Some col /\ fname df = n /\ slot_at col i = meaning v.
Proof.
  intros fc fs vs V Ne H C. destruct (simple_batch fc fs vs V Ne H C) as [dfs [cols [_ [E S]]]]. exists dfs, cols. split; [exact E|].
  intros i r j n v. exact (batch_cell dfs cols vs i r j n v S).
Qed.
Print Assumptions C48_lists_partial.
Example C48_lists_case : exists fs vs, List.length vs = 2 /\ valid (ScRecord fs) /\ fs <> [] /\ (forall n al s, In (n, al, s) fs -> scalar_column s \/ list_column s)
  /\ Forall (conforms (ScRecord fs)) vs.
Proof. exists ex_lists, ex_list_rows. split; [reflexivity|]. destruct ex_lists_ok as [A [B C]]. split; [exact A|]. split; [discriminate|]. now split. Qed.

(** Nested lists and records, to any depth: without the constructs excluded by [lossless] and [nulls_ok], whose
    values are lost or make the reader panic (see the refutations), columns that can be read show their rows. *)
Theorem C48_nested_partial : forall fc fs vs, valid (ScRecord fs) -> fs <> [] -> ~ part ScRef (ScRecord fs) -> ~ part ScLocalTimestamp (ScRecord fs) ->
  lossless false (ScRecord fs) = true -> readable (ScRecord fs) = true -> Forall (conforms (ScRecord fs)) vs -> Forall (nulls_ok (ScRecord fs)) vs ->
  exists dfs cols, read_batch fc (ScRecord fs) vs = Ok (dfs, cols) /\ batch_shows (dfs, cols) vs.
Proof.
  intros fc fs vs V Ne R1 R2 L R C O. destruct (read_batch_shows fc fs vs V Ne (fun U => match U with or_introl u => R1 u | or_intror u => R2 u end) L C O) as [[dfs [cols [_ H]]]|[e [_ R']]].
  - exists dfs, cols. exact H.
  - rewrite R in R'. discriminate.
Qed.
Print Assumptions C48_nested_partial.
Example C48_nested_case : exists fs vs, List.length vs = 2 /\ valid (ScRecord fs) /\ fs <> [] /\ ~ part ScRef (ScRecord fs) /\ ~ part ScLocalTimestamp (ScRecord fs)
  /\ lossless false (ScRecord fs) = true /\ readable (ScRecord fs) = true /\ Forall (conforms (ScRecord fs)) vs /\ Forall (nulls_ok (ScRecord fs)) vs.
Proof. exists ex_nested, ex_nested_rows. split; [reflexivity|]. destruct ex_nested_ok as [A [B [C [D [E [F [_ [G H]]]]]]]]. repeat (split; [assumption|]). assumption. Qed.

(** Lists of booleans that may be null come back with all booleans false. *)
Theorem C48_nullable_boolean_list_refuted : forall fc bs, let s := one "b" (ScUnion [ScNull; ScArray ScBoolean]) in
  let vs := rows_of "b" [AvUnion 1 (AvArray (map AvBoolean bs))] in
  valid s /\ Forall (conforms s) vs /\ cell_at (read_batch fc s vs) 0 = Some (SlList (map (fun _ => SlBool false) bs)).
Proof. exact bool_list_lost. Qed.
Print Assumptions C48_nullable_boolean_list_refuted.
(** Booleans in lists that may be null come back null. *)
Theorem C48_nullable_booleans_refuted : forall fc b, let s := one "b" (ScArray (ScUnion [ScNull; ScBoolean])) in
  let vs := rows_of "b" [AvArray [AvUnion 1 (AvBoolean b)]] in
  valid s /\ Forall (conforms s) vs /\ cell_at (read_batch fc s vs) 0 = Some (SlList [SlNull]).
Proof. exact bool_items_lost. Qed.
Print Assumptions C48_nullable_booleans_refuted.
(** After a row whose list of records is null, the next row gets the record made up for the null. *)
Theorem C48_null_list_of_records_refuted : forall fc z, int_range z ->
  let s := one "l" (ScUnion [ScNull; ScArray (ScUnion [ScNull; ScRecord [("x", [], ScUnion [ScNull; ScInt])]])]) in
  let vs := rows_of "l" [AvUnion 0 AvNull; AvUnion 1 (AvArray [AvUnion 1 (AvRecord [("x", AvUnion 1 (AvInt z))])])] in
  valid s /\ Forall (conforms s) vs /\ cell_at (read_batch fc s vs) 0 = Some SlNull /\ cell_at (read_batch fc s vs) 1 = Some (SlList [SlNull]).
Proof. exact null_list_shifts. Qed.
Print Assumptions C48_null_list_of_records_refuted.
(** ... or, if the records may not be null, the reader panics. *)
Theorem C48_null_list_panics_refuted : forall fc z, int_range z -> let s := one "l" (ScUnion [ScNull; ScArray (ScRecord [("x", [], ScInt)])]) in
  let vs := rows_of "l" [AvUnion 0 AvNull; AvUnion 1 (AvArray [AvRecord [("x", AvInt z)]])] in
  valid s /\ Forall (conforms s) vs /\ read_batch fc s vs = Panic.
Proof. exact null_list_panics. Qed.
Print Assumptions C48_null_list_panics_refuted.
(** The same with lists of lists. *)
Theorem C48_null_list_of_lists_refuted : forall fc z, int_range z -> let s := one "l" (ScUnion [ScNull; ScArray (ScUnion [ScNull; ScArray ScInt])]) in
  let vs := rows_of "l" [AvUnion 0 AvNull; AvUnion 1 (AvArray [AvUnion 1 (AvArray [AvInt z])])] in
  valid s /\ Forall (conforms s) vs /\ cell_at (read_batch fc s vs) 1 = Some (SlList [SlNull]).
Proof. exact null_lists_shift. Qed.
Print Assumptions C48_null_list_of_lists_refuted.
(** The fields of records in a list of lists come back null. *)
Theorem C48_records_in_lists_of_lists_refuted : forall fc z, int_range z -> let s := one "l" (ScArray (ScArray (ScRecord [("x", [], ScUnion [ScNull; ScInt])]))) in
  let vs := rows_of "l" [AvArray [AvArray [AvRecord [("x", AvUnion 1 (AvInt z))]]]] in
  valid s /\ Forall (conforms s) vs /\ cell_at (read_batch fc s vs) 0 = Some (SlList [SlList [SlStruct [("x", SlNull)]]]).
Proof. exact deep_records_lost. Qed.
Print Assumptions C48_records_in_lists_of_lists_refuted.

(** Rows of scalars, which may be null, are read and show their values.  Missing: the types refuted below,
    and decimals and durations, which are errors. *)
Theorem C49_scalars_partial : forall fc fs vs, valid (ScRecord fs) -> fs <> [] -> (forall n al s, In (n, al, s) fs -> scalar_column s) ->
  Forall (conforms (ScRecord fs)) vs ->
  exists dfs cols, to_arrow_schema (ScRecord fs) = Ok dfs /\ read_batch fc (ScRecord fs) vs = Ok (dfs, cols) /\ batch_shows (dfs, cols) vs.
Proof. intros fc fs vs V Ne H. exact (simple_batch fc fs vs V Ne (fun n al s I => or_introl (H n al s I))). Qed.
Print Assumptions C49_scalars_partial.
Example C49_scalars_case : exists fs vs, List.length vs = 2 /\ valid (ScRecord fs) /\ fs <> [] /\ (forall n al s, In (n, al, s) fs -> scalar_column s) /\ Forall (conforms (ScRecord fs)) vs.
Proof. exists ex_scalars, ex_scalar_rows. split; [reflexivity|]. destruct ex_scalars_ok as [A [B C]]. split; [exact A|]. split; [discriminate|]. now split. Qed.

(** Whatever the schema, as long as no excluded construct occurs: either the rows are shown or there is an
    error, and there is one only if the schema has a column that cannot be read.  It never panics. *)
Theorem C49_shown_or_error_partial : forall fc fs vs, valid (ScRecord fs) -> fs <> [] -> ~ part ScRef (ScRecord fs) -> ~ part ScLocalTimestamp (ScRecord fs) ->
  lossless false (ScRecord fs) = true -> Forall (conforms (ScRecord fs)) vs -> Forall (nulls_ok (ScRecord fs)) vs ->
  (exists dfs cols, to_arrow_schema (ScRecord fs) = Ok dfs /\ read_batch fc (ScRecord fs) vs = Ok (dfs, cols) /\ batch_shows (dfs, cols) vs)
  \/ (exists e, read_batch fc (ScRecord fs) vs = Err e /\ readable (ScRecord fs) = false).
Proof.
  intros fc fs vs V Ne R1 R2 L C O. exact (read_batch_shows fc fs vs V Ne (fun U => match U with or_introl u => R1 u | or_intror u => R2 u end) L C O).
Qed.
Print Assumptions C49_shown_or_error_partial.
(** A value that is not a record is never shown as a row: the batch is refused. *)
Theorem C49_only_records : forall fc s vs b, read_batch fc s vs = Ok b -> Forall (fun v => exists r, v = AvRecord r) vs.
Proof.
  intros fc s vs b E. unfold read_batch in E. apply bind_ok in E as [fields [_ E]]. apply bind_ok in E as [lookup [_ E]]. apply bind_ok in E as [rows [R _]]. clear -R.
  revert rows R. unfold to_rows. induction vs as [|v vs IH]; intros rows R; [constructor|]. cbn [mapM] in R. apply bind_ok in R as [x [R1 R]]. apply bind_ok in R as [l [R2 _]].
  constructor; [|now apply (IH l)]. destruct v; try discriminate. eauto.
Qed.
Print Assumptions C49_only_records.
Example C49_only_records_case : exists b, read_batch (fun _ _ => None) (one "a" ScInt) (rows_of "a" [AvInt 1; AvInt 2]) = Ok b /\ read_batch (fun _ _ => None) (one "a" ScInt) (rows_of "a" [AvInt 1] ++ [AvInt 2])%list = Err EArrow.
Proof. eexists. split; vm_compute; reflexivity. Qed.

(** A UUID in a column that may be null comes back null. *)
Theorem C49_uuid_refuted : forall fc u, let s := one "id" (ScUnion [ScNull; ScUuid]) in let vs := rows_of "id" [AvUnion 1 (AvUuid u)] in
  valid s /\ Forall (conforms s) vs /\ cell_at (read_batch fc s vs) 0 = Some SlNull.
Proof. exact uuid_lost. Qed.
Print Assumptions C49_uuid_refuted.
(** Timestamps in nanoseconds make the reader panic. *)
Theorem C49_nanos_refuted : forall fc z, long_range z -> let s := one "t" ScTimestampNanos in let vs := rows_of "t" [AvTimestampNanos z] in
  valid s /\ Forall (conforms s) vs /\ read_batch fc s vs = Panic.
Proof. exact nanos_panic. Qed.
Print Assumptions C49_nanos_refuted.
(** So do, in any schema, types used again by name and local timestamps. *)
Theorem C49_references_refuted : forall fc fs vs, valid (ScRecord fs) -> part ScRef (ScRecord fs) \/ part ScLocalTimestamp (ScRecord fs) ->
  read_batch fc (ScRecord fs) vs = Panic.
Proof. exact ref_panic. Qed.
Print Assumptions C49_references_refuted.
Example C49_references_case : exists fs, valid (ScRecord fs) /\ part ScRef (ScRecord fs).
Proof. exists [("a", [], ScFixed 4); ("b", [], ScArray ScRef)]. split; [now apply valid_b_spec|]. apply (pt_field _ "b" [] (ScArray ScRef)); [cbn; auto|]. apply pt_array, pt_refl. Qed.
(** A field whose name is the alias of a later field shows the values of the later field. *)
Theorem C49_alias_refuted : forall fc a b, let s := ScRecord [("a", [], ScString); ("b", ["a"], ScString)] in
  let vs := [AvRecord [("a", AvString a); ("b", AvString b)]] in
  Forall (conforms s) vs /\ cell_at (read_batch fc s vs) 0 = Some (SlText b).
Proof. exact alias_misread. Qed.
Print Assumptions C49_alias_refuted.

(** The Arrow schema has the fields of the record, with their names and positions, and they may be null
    exactly if they are unions with null. *)
Theorem C50_fields : forall fs, valid (ScRecord fs) -> ~ part ScRef (ScRecord fs) -> ~ part ScLocalTimestamp (ScRecord fs) ->
  exists dfs, to_arrow_schema (ScRecord fs) = Ok dfs /\ Forall2 (fun f df => fname df = fst (fst f) /\ (fnull df = true <-> may_be_null (snd f))) fs dfs.
Proof. exact schema_fields. Qed.
Print Assumptions C50_fields.
(** So have the records and lists inside, to any depth, unless a union with null of more than two types occurs. *)
Theorem C50_nested_partial : forall fs dfs, valid (ScRecord fs) -> ~ wide_null (ScRecord fs) -> to_arrow_schema (ScRecord fs) = Ok dfs ->
  Forall2 (fun f df => fname df = fst (fst f) /\ arrow_type (snd f) (ftype df) /\ (fnull df = true <-> may_be_null (snd f))) fs dfs.
Proof. exact schema_nested. Qed.
Print Assumptions C50_nested_partial.
Example C50_nested_case : exists fs dfs, List.length fs = 4 /\ valid (ScRecord fs) /\ ~ part ScRef (ScRecord fs) /\ ~ part ScLocalTimestamp (ScRecord fs)
  /\ ~ wide_null (ScRecord fs) /\ to_arrow_schema (ScRecord fs) = Ok dfs.
Proof. eexists ex_nested, _. split; [reflexivity|]. destruct ex_nested_ok as [A [_ [B [C [_ [_ [D _]]]]]]]. repeat (split; [assumption|]). reflexivity. Qed.
(** Such a union inside a record is not marked nullable. *)
Theorem C50_wide_union_refuted : exists dfs, to_arrow_schema (one "r" (ScRecord [("u", [], ScUnion [ScNull; ScInt; ScString])])) = Ok [("r", DStruct dfs, false)]
  /\ map fnull dfs = [false].
Proof. exact nested_not_nullable. Qed.
Print Assumptions C50_wide_union_refuted.
(** The conversion panics exactly if a type is used again by name or a local timestamp occurs. *)
Theorem C50_panics : forall fs, valid (ScRecord fs) -> (to_arrow_schema (ScRecord fs) = Panic <-> part ScRef (ScRecord fs) \/ part ScLocalTimestamp (ScRecord fs)).
Proof. exact schema_panics. Qed.
Print Assumptions C50_panics.

(** A column of bytes that may be null shows bytes and text as they are, and a list of numbers that are bytes as these
    bytes; of longs only the low 32 bits count.  Any other value is shown as null. *)
Theorem C49_bytes : forall fc vs, exists cells, read_batch fc (one "a" (ScUnion [ScNull; ScBytes])) (rows_of "a" vs) = Ok ([("a", DBinary, true)], [ArFlat DBinary cells])
  /\ Forall2 (fun v c => (forall s, bytes_value v s <-> c = SlBytes s) /\ ((forall s, ~ bytes_value v s) -> c = SlNull)) vs cells.
Proof.
  intros fc vs. exists (map (fun v => or_null (resolve_bytes v)) vs). split.
  - unfold read_batch. rewrite rows_read. cbn. rewrite Nat.eqb_refl. cbn. rewrite map_map. reflexivity.
  - induction vs as [|v vs IH]; constructor; [|exact IH]. destruct (resolve_bytes_spec v) as [A B]. split.
    + intros s. rewrite A. destruct (resolve_bytes v) as [sl|]; cbn; split; congruence.
    + intros N. rewrite (B N). reflexivity.
Qed.
Print Assumptions C49_bytes.
Example C49_bytes_case : bytes_value (AvUnion 1 (AvArray [AvInt 104; AvLong 105])) "hi" /\ bytes_value (AvString "hi") "hi" /\ bytes_value (AvArray [AvLong 4294967400]) "h"
  /\ (forall s, ~ bytes_value (AvArray [AvInt 256]) s).
Proof.
  split; [|split; [|split]].
  - eexists. split; [right; eexists; reflexivity|]. right. right. eexists. split; [reflexivity|]. apply bytes_of_spec. reflexivity.
  - eexists. split; [left; split; [reflexivity|discriminate]|]. right. now left.
  - eexists. split; [left; split; [reflexivity|discriminate]|]. right. right. eexists. split; [reflexivity|]. apply bytes_of_spec. reflexivity.
  - intros s H. apply resolve_bytes_spec in H. discriminate.
Qed.

(** The variants of a union of different simple types have different names in the Arrow schema; missing: types with names. *)
Theorem C50_union_names_partial : forall vs, (List.length vs = 2%nat -> ~ In ScNull vs) -> Forall simple_type vs -> NoDup vs ->
  exists l n, to_arrow_schema (one "a" (ScUnion vs)) = Ok [("a", DUnion l, n)] /\ List.length l = List.length vs /\ NoDup (map fname l).
Proof.
  intros vs L2 F N. destruct (variant_types (has_null vs) vs F) as [l [E G]]. exists l, (has_null vs).
  assert (B : has_null vs && Nat.eqb (List.length vs) 2 = false).
  { destruct (Nat.eqb_spec (List.length vs) 2) as [L|L]; [|apply andb_false_r]. specialize (L2 L). rewrite andb_true_r. unfold has_null. apply not_true_is_false. intros X.
    apply existsb_exists in X as [x [I X]]. destruct x; try discriminate. now apply L2. }
  split.
  - unfold to_arrow_schema, one. cbn [mapM bind fst snd is_nullable]. rewrite (to_type_general _ _ B), E. reflexivity.
  - split; [clear -G; induction G; cbn; congruence|]. exact (names_differ _ _ _ F N G).
Qed.
Print Assumptions C50_union_names_partial.
Example C50_union_names_case : let vs := [ScNull; ScInt; ScLong; ScString] in (List.length vs = 2%nat -> ~ In ScNull vs) /\ Forall simple_type vs /\ NoDup vs.
Proof. cbn zeta. split; [discriminate|]. split; [repeat constructor; cbn; tauto|]. repeat constructor; cbn; intuition discriminate. Qed.
(** An enum and a string have the same name there, and so have two records. *)
Theorem C50_union_names_refuted : forall syms f, valid (one "a" (ScUnion [ScString; ScEnum syms; ScInt])) /\
  (exists l n, to_arrow_schema (one "a" (ScUnion [ScString; ScEnum syms; ScInt])) = Ok [("a", DUnion l, n)] /\ map fname l = ["varchar"; "varchar"; "int"])
  /\ (exists l n, to_arrow_schema (one "a" (ScUnion [ScRecord [(f, [], ScInt)]; ScRecord [(f, [], ScLong)]; ScNull])) = Ok [("a", DUnion l, n)] /\ map fname l = ["struct"; "struct"; "null"]).
Proof. intros syms f. split; [now apply valid_b_spec|]. split; cbn; do 2 eexists; split; reflexivity. Qed.
Print Assumptions C50_union_names_refuted.
