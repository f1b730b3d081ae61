(** C103: names read back. *)
From Verif Require Import Base Str M_Log M_Expr M_Instant M_Names S_Names L_Base L_Str.
Local Open Scope string_scope.

(** The names of meta columns, actions and states read back, and no other text does. *)
Theorem C103_names : reads_back meta_field_name meta_field_of /\ reads_back action_str action_from_str /\ reads_back state_str state_from_str.
Proof.
  assert (M : reads_back meta_field_name meta_field_of).
  { split; [intros []; reflexivity|]. unfold meta_field_of. split.
    - intros s a. repeat match goal with |- context [String.eqb s ?x] => destruct (String.eqb_spec s x) as [->|?] end; intros H; try discriminate H; injection H as <-; reflexivity.
    - intros s N. repeat match goal with |- context [String.eqb s ?x] => destruct (String.eqb_spec s x) as [E|?]; [exfalso|] end; try (eexists; reflexivity); subst s;
      [now apply (N CommitTime)|now apply (N CommitSeqno)|now apply (N RecordKey)|now apply (N PartitionPath)|now apply (N FileName)|now apply (N Operation)]. }
  assert (A : reads_back action_str action_from_str).
  { split; [intros []; reflexivity|]. unfold action_from_str. split.
    - intros s a. repeat match goal with |- context [String.eqb s ?x] => destruct (String.eqb_spec s x) as [->|?] end; intros H; try discriminate H; injection H as <-; reflexivity.
    - intros s N. repeat match goal with |- context [String.eqb s ?x] => destruct (String.eqb_spec s x) as [E|?]; [exfalso|] end; try (eexists; reflexivity); subst s;
      [now apply (N Commit)|now apply (N DeltaCommit)|now apply (N ReplaceCommit)]. }
  assert (S : reads_back state_str state_from_str).
  { split; [intros []; reflexivity|]. unfold state_from_str. split.
    - intros s a. repeat match goal with |- context [String.eqb s ?x] => destruct (String.eqb_spec s x) as [->|?] end; intros H; try discriminate H; injection H as <-; reflexivity.
    - intros s N. repeat match goal with |- context [String.eqb s ?x] => destruct (String.eqb_spec s x) as [E|?]; [exfalso|] end; try (eexists; reflexivity); subst s;
      [now apply (N Requested)|now apply (N Inflight)|now apply (N Completed)]. }
  auto.
Qed.

(** The schema of the meta columns has the names of the format in its order; a column is at its index, and only there. *)
Theorem C103_meta_columns : meta_schema = meta_columns /\ meta_schema_with_operation = (meta_columns ++ ["_hoodie_operation"])%list
  /\ forall f i, nth_error meta_schema_with_operation i = Some (meta_field_name f) <-> i = field_index f.
Proof.
  split; [reflexivity|]. split; [reflexivity|]. intros f i. split; [|intros ->; now destruct f].
  do 6 (destruct i as [|i]; [destruct f; cbn; intros H; try reflexivity; discriminate H|]). destruct i; discriminate.
Qed.

(** The name of a type of log blocks does not read back: that of Avro blocks is written in one way and read in another. *)
Theorem C103_block_types_refuted : ~ reads_back block_type_name block_type_named.
Proof. intros [B _]. specialize (B AvroData). discriminate B. Qed.
(** All others do.  Missing: Avro blocks, as refuted. *)
Theorem C103_block_types_partial : (forall t, t <> AvroData -> block_type_named (block_type_name t) = Ok t)
  /\ (forall s t, block_type_named s = Ok t -> t <> AvroData -> s = block_type_name t)
  /\ (forall s, (forall t, s <> block_type_name t) -> s <> "avro_data" -> exists e, block_type_named s = Err e).
Proof.
  split; [intros [] N; try reflexivity; now contradiction N|]. unfold block_type_named. split.
  - intros s t. repeat match goal with |- context [String.eqb s ?x] => destruct (String.eqb_spec s x) as [->|?] end; intros H; try discriminate H; injection H as <-; intros; try reflexivity. contradiction.
  - intros s N V. repeat match goal with |- context [String.eqb s ?x] => destruct (String.eqb_spec s x) as [E|?]; [exfalso|] end; try (eexists; reflexivity); subst s;
    [now apply (N Command)|now apply (N Delete)|now apply (N Corrupted)|now apply V|now apply (N HfileData)|now apply (N ParquetData)|now apply (N CdcData)].
Qed.

(** A filter that is built by a method call on a column is the one that is written with the operator of that name, and
    its text is that text again. *)
Theorem C103_filters : forall name v f op, written_filter name v f op -> from_str_tuples [(name, op, v)] = Ok [f] /\ filter_to_tuple f = (name, op, v).
Proof. intros name v f op []; split; reflexivity. Qed.

Example C103_case : meta_field_of "_hoodie_record_key" = Ok RecordKey /\ nth_error meta_schema_with_operation 2 = Some "_hoodie_record_key"
  /\ state_from_str "" = Ok Completed /\ (exists e, state_from_str "completed" = Err e) /\ block_type_named ":delete" = Ok Delete
  /\ written_filter "day" "9" (field_gte (col "day") "9") ">=".
Proof. repeat split; [|constructor]. now eexists. Qed.

Print Assumptions C103_names.
Print Assumptions C103_meta_columns.
Print Assumptions C103_block_types_refuted.
Print Assumptions C103_block_types_partial.
Print Assumptions C103_filters.
