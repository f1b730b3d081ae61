(** A small table for the examples of SQL queries: two cities, a file each, no log files. *)
From Coq Require Import Sorted.
From Verif Require Import Base Str M_Utf8 M_Time M_Instant M_Timeline M_FileGroup M_Builder M_Listing M_Expr M_Log M_Config M_Reader M_Table M_Storage M_Scan
  S_Time S_Timeline S_FileGroup S_Builder S_Listing S_Expr S_Reader S_Config S_Table S_Storage S_Scan L_Reader L_Tree L_Expr L_Scan E_History.
Local Open Scope string_scope.

Definition sx_t := "20240101000000000".
Definition sx_ams := new_meta "f1_0-1-2_20240101000000000.parquet" 1000.
Definition sx_rio := new_meta "f2_0-1-3_20240101000000000.parquet" 900.
Definition sx_root : tree := Dir [] [(".hoodie", Dir [] [("metadata", Dir [] [])]); ("city=ams", Dir [sx_ams] []); ("city=rio", Dir [sx_rio] [])].
Definition sx_md : list (string * json) :=
  [("partitionToWriteStats", JObj [("city=ams", JArr [JObj [("fileId", JStr "f1"); ("path", JStr "city=ams/f1_0-1-2_20240101000000000.parquet")]]);
                                   ("city=rio", JArr [JObj [("fileId", JStr "f2"); ("path", JStr "city=rio/f2_0-1-3_20240101000000000.parquet")]])])].
Definition sx_sch : list field := [{| f_name := "id"; f_type := TUtf8; f_null := true |}; {| f_name := "city"; f_type := TUtf8; f_null := true |}].
Definition sx_row (id city : string) : list cell := [VText id; VText city].
Definition sx_batch (rows : list (list cell)) : record_batch := {| rb_fields := sx_sch; rb_rows := rows |}.
Definition sx_parquet (p : string) : outcome record_batch :=
  if String.eqb p "city=ams/f1_0-1-2_20240101000000000.parquet" then Ok (sx_batch [sx_row "1" "ams"; sx_row "2" "ams"])
  else if String.eqb p "city=rio/f2_0-1-3_20240101000000000.parquet" then Ok (sx_batch [sx_row "3" "rio"; sx_row "4" "rio"]) else Err EStorage.
Definition sx_store : store unit :=
  {| st_json := fun p => if String.eqb p ".hoodie/20240101000000000.commit" then Ok sx_md else Err EStorage; st_schema := fun _ => Ok [("id", tt); ("city", tt)];
     st_files := fun p => if String.eqb p "city=ams" then Ok [sx_ams] else if String.eqb p "city=rio" then Ok [sx_rio] else Ok []; st_dirs := tree_dirs sx_root;
     st_meta := fun p => Ok {| fm_name := p; fm_size := 7; fm_byte_size := 1; fm_num_records := 2; fm_populated := true |};
     st_parquet := sx_parquet; st_bytes := fun _ => Err EStorage; st_open := fun _ _ => Ok tt |}.
Definition sx_table : table :=
  {| t_configs := [("hoodie.table.partition.fields", "city"); ("hoodie.datasource.write.hive_style_partitioning", "true");
                   ("hoodie.datasource.write.partitionpath.urlencode", "false"); ("hoodie.read.input.partitions", "2")];
     t_storage := []; t_commits := [{| i_timestamp := sx_t; i_action := Commit; i_state := Completed; i_epoch := 1704067200000 |}] |}.
Definition sx_local (d : ndt) : option ndt := Some d.
Definition sx_cast (_ : unit) (s : string) : option string := Some s.
Definition sx_cmp (a b : string) : option comparison := Some (scmp a b).
(** The table is in /data/t; the rows of its objects. *)
Definition sx_base : url := {| u_special := true; u_file := true; u_opaque := false; u_path := "/data/t" |}.
Definition sx_objects (key : string) : outcome (list (list cell)) :=
  if starts_with "data/t/" key then match sx_parquet (drop 7 key) with Ok b => Ok (rb_rows b) | Err e => Err e | Panic => Panic end else Err EStorage.
Definition sx_column (r : list cell) (c : string) : option string :=
  match nth (if String.eqb c "id" then 0 else 1)%nat r Null with VText s => Some s | _ => None end.
(** WHERE city = 'rio' AND mod(id, 2) = 0 *)
Definition sx_opaque (r : list cell) (_ : df_expr string) : option bool := option_map (fun s => String.eqb s "2" || String.eqb s "4") (sx_column r "id").
Definition sx_where : list (df_expr string) := [XBin (XCol "city") DEq (XLit "rio"); XBin (XOther 1 [XCol "id"; XLit "2"]) DEq (XLit "0")].

Fact sx_wf : wf_tree sx_root.
Proof.
  assert (L : forall fs, wf_tree (Dir fs [])) by (intros; constructor; [constructor|intros ? ? []|intros ? ? []]).
  constructor.
  - cbn. repeat constructor; cbn; intuition discriminate.
  - intros n s [[= <- _]|[[= <- _]|[[= <- _]|[]]]]; split; (discriminate || reflexivity).
  - intros n s [[= _ <-]|[[= _ <-]|[[= _ <-]|[]]]]; try apply L. constructor.
    + cbn. repeat constructor; cbn; intuition.
    + intros n' s' [[= <- _]|[]]; split; (discriminate || reflexivity).
    + intros n' s' [[= _ <-]|[]]; apply L.
Qed.
Fact sx_fields : wf_fields [("city", tt)].
Proof. split; [repeat constructor; intros []|]. intros n [ <- |[]]. repeat split. Qed.
Fact sx_written : written sx_base ["data"; "t"] ["data"; "t"].
Proof.
  split; [reflexivity|]. split; [repeat (apply Forall_cons; [repeat split; discriminate|]); apply Forall_nil|]. split; [discriminate|]. split; [repeat (apply Forall2_cons; [apply encodes_self; reflexivity|]); apply Forall2_nil|].
  split; [|now left]. repeat (apply Forall_cons; [repeat (split; [split; cbn; lia|]); exact I|]). apply Forall_nil.
Qed.
Ltac safe_names := repeat (apply Forall_cons; [repeat (split; [split; [split; cbn; lia|cbn; intuition discriminate]|]); exact I|]); apply Forall_nil.
Fact sx_safe : Forall safe ["data"; "t"].
Proof. safe_names. Qed.

(** The slices of the table. *)
Definition sx_slice (id token city : string) : file_slice :=
  {| fs_base := {| bf_file_id := id; bf_write_token := token; bf_commit := sx_t; bf_ext := "parquet";
                   bf_meta := Some {| fm_name := "city=" ++ city ++ "/" ++ id ++ "_" ++ token ++ "_" ++ sx_t ++ ".parquet"; fm_size := 7; fm_byte_size := 1; fm_num_records := 2; fm_populated := true |} |};
     fs_logs := []; fs_partition := "city=" ++ city |}.
Definition sx_slice1 := sx_slice "f1" "0-1-2" "ams".
Definition sx_slice2 := sx_slice "f2" "0-1-3" "rio".
Definition sx_asks (filters : list (string * string * string)) (c' : cache) (ss : list file_slice) : Prop :=
  get_file_slices_as_of unit string sx_cast sx_cmp sx_local sx_store sx_table sx_t filters [] c' (Ok ss).
Ltac sx_one := eapply star_step; [apply (ps_start _ _ (Z.to_nat 10)); cbn; lia|]; cbn [app];
  eapply star_step; [apply (ps_complete _ _ (Z.to_nat 10) _ [] _ []); vm_compute; reflexivity|]; cbn [app].
Ltac sx_asked t := eexists; eapply ga_ok; [reflexivity|]; eapply sa_view; [reflexivity|reflexivity|reflexivity|reflexivity|];
  eapply vq_ok with (order := fun _ l => l);
  [reflexivity|eapply ll_finished with (fuel := 5%nat); [reflexivity|vm_compute; reflexivity|]; t; eapply star_step; [apply (ps_finish _ _ (Z.to_nat 10)); cbn; lia|]; apply star_refl|reflexivity|vm_compute; reflexivity].
Fact sx_all : exists c', sx_asks [] c' [sx_slice1; sx_slice2].
Proof. sx_asked ltac:(do 2 sx_one). Qed.
Fact sx_in_rio : exists c', sx_asks [("city", "=", "rio")] c' [sx_slice2].
Proof. sx_asked ltac:(sx_one). Qed.
Fact sx_below_m : exists c', sx_asks [("city", "<", "m")] c' [sx_slice1].
Proof. sx_asked ltac:(sx_one). Qed.
Fact sx_latest : forall filters c' ss, sx_asks filters c' ss -> get_file_slices unit string sx_cast sx_cmp sx_local sx_store sx_table filters [] c' (Ok ss).
Proof. intros filters c' ss H. eapply gs_some with (t := sx_t); [reflexivity|exact H]. Qed.
Definition sx_scan := scan unit string sx_cast sx_cmp sx_local sx_store sx_table sx_base string (fun s => s).
Fact sx_scanned : forall es c' ss groups, sx_asks (exprs_to_filters string (fun s => s) es) c' ss ->
  (let* parts := splits 2 ss in mapM (mapM (scan_file sx_base)) parts) = Ok groups -> sx_scan es [] c' (Ok groups).
Proof.
  intros es c' ss groups H E. rewrite <- E. assert (P : input_partitions (t_configs sx_table) = Ok 2%Z) by reflexivity.
  assert (X : get_file_slices_splits unit string sx_cast sx_cmp sx_local sx_store sx_table (Z.to_nat 2) (exprs_to_filters string (fun s => s) es) [] c' (splits 2 ss)).
  { eapply gl_some with (t := sx_t); [reflexivity|]. exact (gp_one _ _ _ _ _ _ _ _ _ _ _ _ _ H). }
  exact (sc_plan _ _ _ _ _ _ _ _ _ _ es 2%Z [] c' _ P X).
Qed.
Definition sx_query := sql_query unit string sx_cast sx_cmp sx_local sx_store sx_table sx_base string (fun s => s) (list cell) sx_objects sx_column (fun s => Some s) sx_opaque.
Definition sx_key1 := "data/t/city=ams/f1_0-1-2_20240101000000000.parquet".
Definition sx_key2 := "data/t/city=rio/f2_0-1-3_20240101000000000.parquet".
Fact sx_plan_all : exists c', sx_scan [] [] c' (Ok [[{| pf_location := sx_key1; pf_size := 7 |}]; [{| pf_location := sx_key2; pf_size := 7 |}]]).
Proof. destruct sx_all as [c' H]. exists c'. eapply sx_scanned; [exact H|]. vm_compute. reflexivity. Qed.
Fact skips_all : forall A (p : A -> bool) l, skips A p l l.
Proof. induction l; constructor; auto. Qed.
(** Two queries: one with a filter that is pushed down and one that is not, and one with the literal on
    the left. *)
Fact sx_answer : exists c', sx_query sx_where [] c' (Ok [sx_row "4" "rio"]).
Proof.
  destruct sx_in_rio as [c' H]. exists c'.
  eapply sq_rows with (groups := [[{| pf_location := sx_key2; pf_size := 7 |}]]) (rss := [[sx_row "3" "rio"; sx_row "4" "rio"]]) (kept := [[sx_row "3" "rio"; sx_row "4" "rio"]]).
  - vm_compute. reflexivity.
  - eapply sx_scanned; [exact H|]. vm_compute. reflexivity.
  - repeat constructor.
  - repeat constructor; apply skips_all.
  - vm_compute. constructor; constructor.
Qed.
Definition sx_left : list (df_expr string) := [XBin (XLit "m") DLt (XCol "city")].
Fact sx_left_answer : exists c', sx_query sx_left [] c' (Ok []).
Proof.
  destruct sx_below_m as [c' H]. exists c'.
  eapply sq_rows with (groups := [[{| pf_location := sx_key1; pf_size := 7 |}]]) (rss := [[sx_row "1" "ams"; sx_row "2" "ams"]]) (kept := [[sx_row "1" "ams"; sx_row "2" "ams"]]).
  - vm_compute. reflexivity.
  - eapply sx_scanned; [exact H|]. vm_compute. reflexivity.
  - repeat constructor.
  - repeat constructor; apply skips_all.
  - vm_compute. constructor.
Qed.
(** The files hold the rows of their partitions. *)
Definition sx_names : list string := ["data"; "t"].
Ltac names := unfold path_names; cbn [split Ascii.eqb Bool.eqb]; repeat (first [apply no_names|apply name_skip; [cbn; tauto|]|apply name_keep; [cbn; intuition discriminate|]]).
Fact sx_stored : stores sx_objects sx_names sx_slice1 [sx_row "1" "ams"; sx_row "2" "ams"] /\ stores sx_objects sx_names sx_slice2 [sx_row "3" "rio"; sx_row "4" "rio"].
Proof.
  split; [exists ["city=ams"; "f1_0-1-2_20240101000000000.parquet"]|exists ["city=rio"; "f2_0-1-3_20240101000000000.parquet"]]; (split; [|split; [safe_names|reflexivity]]).
  - change (base_relative_path sx_slice1) with "city=ams/f1_0-1-2_20240101000000000.parquet". names.
  - change (base_relative_path sx_slice2) with "city=rio/f2_0-1-3_20240101000000000.parquet". names.
Qed.
Fact sx_lies : forall id city, In city ["ams"; "rio"] -> lies_in sx_cast (fun _ => tt) [("city", tt)] true false (sx_column (sx_row id city)) ("city=" ++ city).
Proof.
  intros id city I. exists [city]. split; [|split; [reflexivity|]].
  - exists [city]. split; [repeat constructor|reflexivity].
  - intros n ty v [[= <- <- <-]|[]]. split; [reflexivity|]. exists city. split; reflexivity.
Qed.
Fact sx_slices : forall s, latest_slice string sx_cast sx_cmp sx_local sx_store sx_table s -> s = sx_slice1 \/ s = sx_slice2.
Proof.
  intros s [c [c' [ss [A [G I]]]]]. inversion G as [? E|? ? t ? E H]; subst; vm_compute in E; [discriminate|]. injection E as <-.
  destruct (answer_expected unit string sx_cast sx_cmp sx_local sx_store sx_table sx_root (tree_serves _ sx_wf) sx_wf _ _ _ _ _ A H) as [fs [q [pt [format [ss0 [F1 [F2 [F3 [F4 [F5 F6]]]]]]]]]].
  cbn in F1. injection F1 as <-. vm_compute in F2. injection F2 as <-. vm_compute in F3. injection F3 as <-. vm_compute in F4. injection F4 as <-. vm_compute in F5. injection F5 as <-.
  apply (Permutation_in s F6) in I. destruct I as [ <- |[ <- |[]]]; auto.
Qed.

(** The table of the examples of histories, stored in the same directory: the query reads the latest base file. *)
Definition hx_objects (key : string) : outcome (list (list cell)) :=
  if String.eqb key "data/t/f_0-0-1_20250105000000000.parquet" then Ok [hx_a2; hx_b1] else Err EStorage.
Fact hx_query : exists c', sql_query unit string sx_cast sx_cmp sx_local hx_store hx_table sx_base string (fun s => s) (list cell) hx_objects (fun _ _ => None) (fun s => Some s) (fun _ _ => None)
  [] [] c' (Ok [hx_a2; hx_b1]).
Proof.
  assert (X : exists c' s, get_file_slices_as_of unit string sx_cast sx_cmp sx_local hx_store hx_table hx_t6 [] [] c' (Ok [s])
    /\ (let* parts := splits 0 [s] in mapM (mapM (scan_file sx_base)) parts) = Ok [[{| pf_location := "data/t/f_0-0-1_20250105000000000.parquet"; pf_size := 1 |}]]).
  { eexists. eexists. split.
    - eapply ga_ok; [reflexivity|]. eapply sa_view; [reflexivity|reflexivity|reflexivity|reflexivity|].
      eapply vq_ok with (order := fun _ l => l); [reflexivity|eapply hx_listing; vm_compute; reflexivity|reflexivity|vm_compute; reflexivity].
    - vm_compute. reflexivity. }
  destruct X as [c' [s [H E]]]. exists c'.
  eapply sq_rows with (groups := [[{| pf_location := "data/t/f_0-0-1_20250105000000000.parquet"; pf_size := 1 |}]]) (rss := [[hx_a2; hx_b1]]) (kept := [[hx_a2; hx_b1]]).
  - vm_compute. reflexivity.
  - rewrite <- E. assert (P : input_partitions (t_configs hx_table) = Ok 0%Z) by reflexivity.
    assert (X : get_file_slices_splits unit string sx_cast sx_cmp sx_local hx_store hx_table (Z.to_nat 0) (exprs_to_filters string (fun s => s) []) [] c' (splits 0 [s])).
    { eapply gl_some with (t := hx_t6); [reflexivity|]. exact (gp_one _ _ _ _ _ _ _ _ _ _ _ _ _ H). }
    exact (sc_plan _ _ _ _ _ _ _ _ _ _ [] 0%Z [] c' _ P X).
  - repeat constructor.
  - repeat constructor; apply skips_all.
  - apply Permutation_refl.
Qed.
