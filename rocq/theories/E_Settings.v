(** A table whose data files lie in its root, and whose properties name no partition column: an empty text. *)
From Verif Require Import Base Str M_Time M_FileGroup M_Builder M_Listing M_Config M_Reader M_Table M_Storage M_Objects M_Open S_Objects E_Scan E_Open.
Local Open Scope string_scope.

Definition px_props (fields : list string) : string :=
  lines_of (["hoodie.table.name=t"; "hoodie.table.type=MOR"; "hoodie.table.version=6"; "hoodie.timeline.layout.version=1";
             "hoodie.datasource.write.hive_style_partitioning=true"; "hoodie.datasource.write.partitionpath.urlencode=false"] ++ fields)%list.
Definition px_objs (fields : list string) : list object :=
  [{| o_key := "data/t/.hoodie/hoodie.properties"; o_data := px_props fields |};
   {| o_key := "data/t/.hoodie/20240101000000000.commit"; o_data := "metadata" |};
   {| o_key := "data/t/f1_0-1-2_20240101000000000.parquet"; o_data := "ams rows" |}].
Definition px_table (fields : list string) : table := match bx_build (px_objs fields) with Ok (tb, _, _) => tb | _ => sx_table end.
Definition px_empty : list string := ["hoodie.table.partition.fields="].
Fact px_built : bx_build (px_objs px_empty) = Ok (px_table px_empty, sx_base, px_objs px_empty) /\ bx_build (px_objs []) = Ok (px_table [], sx_base, px_objs []).
Proof. split; vm_compute; reflexivity. Qed.
Definition px_json (d : string) : outcome (list (string * json)) :=
  if String.eqb d "metadata" then Ok [("partitionToWriteStats", JObj [("", JArr [JObj [("fileId", JStr "f1"); ("path", JStr "f1_0-1-2_20240101000000000.parquet")]])])] else Err EStorage.
Definition px_store (objs : list object) : store unit := object_store objs sx_base unit px_json bx_schema bx_rows bx_footer (fun _ _ => Ok tt).
Definition px_asks (fields : list string) (c' : cache) (r : outcome (list file_slice)) : Prop :=
  get_file_slices_as_of unit string sx_cast sx_cmp sx_local (px_store (px_objs fields)) (px_table fields) sx_t [] [] c' r.
Fact px_hidden : exists c', px_asks px_empty c' (Ok []).
Proof.
  eexists. eapply ga_ok; [reflexivity|]. eapply sa_view; [vm_compute; reflexivity|vm_compute; reflexivity|vm_compute; reflexivity|vm_compute; reflexivity|].
  eapply vq_ok with (order := fun _ l => l); [reflexivity|eapply ll_finished with (fuel := 5%nat); [reflexivity|vm_compute; reflexivity|]; eapply star_step; [apply (ps_finish _ _ (Z.to_nat 10)); cbn; lia|]; apply star_refl|reflexivity|vm_compute; reflexivity].
Qed.
Lemma px_flat : forall files dirs format n order q o, (let* gs := list_file_groups_for_partition files format order EMPTY_PARTITION_PATH in Ok [(EMPTY_PARTITION_PATH, gs)]) = o ->
  load_listing files dirs format false n order q o.
Proof. intros files dirs format n order q o <-. now apply ll_unpartitioned. Qed.
Fact px_shown : exists c' r, px_asks [] c' r /\ bx_files r = Ok [("f1_0-1-2_20240101000000000.parquet", 8, 2)]%Z.
Proof.
  eexists. eexists. split; [eapply ga_ok; [reflexivity|]; eapply sa_view; [vm_compute; reflexivity|vm_compute; reflexivity|vm_compute; reflexivity|vm_compute; reflexivity|]|].
  eapply vq_ok with (order := fun _ l => l); [reflexivity|eapply px_flat; vm_compute; reflexivity|reflexivity|vm_compute; reflexivity].
  reflexivity.
Qed.
